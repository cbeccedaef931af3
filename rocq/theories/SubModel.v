(** Model of the removal of the subdomains that are not kept:
    [MMG3D_keep_only1Subdomain] (src/mmg3d/tools_3d.c:1283-1410) and
    [MMG5_mark_verticesAsUnused] (src/common/tools.c:994-1007), on the vertex and
    element pools of PoolModel.v.  Prisms are given by the list of their six
    vertices. *)
From Coq Require Import ZArith List Bool.
From Verif Require Import CBase Chain MeshModel PoolModel.
Import ListNotations.
Open Scope Z_scope.

(** mmgcommon_private.h:147 *)
Definition MG_REQ : Z := 4.

Definition with_flag (p : point) (f t : Z) : point := mkP (pc p) (pref p) (pxp p) (ptmp p) f t.
Definition set_vpt (s : vpool) (a : arr point) : vpool := mkV (vnp s) (vnil s) (vmax s) a (vxp s) (vxmax s).

(** [MMG5_mark_verticesAsUnused], tools.c:994-1007 *)
Definition mark_unused (s : vpool) : outcome vpool :=
  a <- for_range 1 (vnp s) (fun k a =>
         p <- rd a k ;;
         if negb (vok p) then Ret a else wr a k (with_flag p 0 (Z.lor (ptag p) MG_NUL))) (vpt s) ;;
  Ret (set_vpt s a).

(** tools_3d.c:1356-1359: [mesh->point\[pt->v\[i\]\].flag = 1] *)
Definition flag_vertices (a : arr point) (t : tetra) : outcome (arr point) :=
  for_range 0 3 (fun i a => p <- rd a (tv t i) ;; wr a (tv t i) (with_flag p 1 (ptag p))) a.

(** tools_3d.c:1365-1377 *)
Definition unlink (oa : option (arr Z)) (k : Z) : outcome (option (arr Z)) :=
  match oa with
  | None => Ret None
  | Some a =>
      a' <- for_range 0 3 (fun i a =>
              x <- rd a (4 * (k - 1) + 1 + i) ;;
              if x =? 0 then Ret a else wr a (4 * (Z.quot x 4 - 1) + 1 + Z.rem x 4) 0) a ;;
      Ret (Some a')
  end.

(** tools_3d.c:1344-1384, the loop from [k]; [mesh->ne] is read at every turn. *)
Fixpoint keep_loop (fuel : nat) (nsd k : Z) (a : arr point) (e : epool) : outcome (arr point * epool) :=
  match fuel with
  | O => Stuck
  | S f =>
      if ene e <? k then Ret (a, e)
      else
        t <- rd (etet e) k ;;
        if negb (eok t) then keep_loop f nsd (k + 1) a e
        else
          a1 <- flag_vertices a t ;;
          if tref t =? nsd then keep_loop f nsd (k + 1) a1 e
          else
            adj <- unlink (eadj e) k ;;
            '(_, e1) <- delElt (mkE (ene e) (enil e) (emax e) (etet e) adj) k ;;
            keep_loop f nsd (k + 1) a1 e1
  end.

(** [ppt->tag &= ~MG_NUL] for vertex [x] *)
Definition revive (a : arr point) (x : Z) : outcome (arr point) :=
  p <- rd a x ;; wr a x (with_flag p (pflag p) (Z.ldiff (ptag p) MG_NUL)).
Fixpoint revive_all (a : arr point) (l : list Z) : outcome (arr point) :=
  match l with [] => Ret a | x :: l' => a1 <- revive a x ;; revive_all a1 l' end.

(** [MG_EOK] of a prism *)
Definition prok (l : list Z) : bool := 0 <? nth 0 l 0.

(** tools_3d.c:1330-1332: [while ( !MG_VOK(&point\[np\]) && np ) MMG3D_delPt(mesh,np)] *)
Fixpoint clean_pts (fuel : nat) (s : vpool) : outcome vpool :=
  match fuel with
  | O => Stuck
  | S f =>
      p <- rd (vpt s) (vnp s) ;;
      if vok p then Ret s else if vnp s =? 0 then Ret s
      else s1 <- delPt s (vnp s) ;; clean_pts f s1
  end.

(** [MMG3D_mark_usedVertices], tools_3d.c:1291-1335 *)
Definition mark_used (s : vpool) (e : epool) (pr : arr (list Z)) (npr : Z) : outcome vpool :=
  a <- for_range 1 (vnp s) (fun k a =>
         p <- rd a k ;;
         if negb (pflag p =? 0) || (Z.land (ptag p) MG_REQ =? 0) then Ret a else revive a k) (vpt s) ;;
  a1 <- for_range 1 (ene e) (fun k a =>
         t <- rd (etet e) k ;;
         if negb (eok t) then Ret a else revive_all a [v0 t; v1 t; v2 t; v3 t]) a ;;
  a2 <- for_range 1 npr (fun k a =>
         l <- rd pr k ;; if negb (prok l) then Ret a else revive_all a l) a1 ;;
  clean_pts (S (Z.to_nat (vnp s))) (set_vpt s a2).

(** [MMG3D_keep_only1Subdomain], tools_3d.c:1393-1410 *)
Definition keep_only1 (nsd : Z) (s : vpool) (e : epool) (pr : arr (list Z)) (npr : Z) : outcome (vpool * epool) :=
  if nsd =? 0 then Ret (s, e)
  else
    s1 <- mark_unused s ;;
    '(a, e1) <- keep_loop (S (Z.to_nat (ene e))) nsd 1 (vpt s1) e ;;
    s2 <- mark_used (set_vpt s1 a) e1 pr npr ;;
    Ret (s2, e1).
