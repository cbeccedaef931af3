(** Model of the removal of the subdomains that are not kept, triangle version
    shared by Mmg2d and Mmgs: [MMG5_keep_subdomainElts] and
    [MMG5_mark_usedVertices] (src/common/tools.c:1017-1110), called by
    [MMG2D_keep_only1Subdomain] (src/mmg2d/tools_2d.c:92-109) and
    [MMGS_keep_only1Subdomain] (src/mmgs/gentools_s.c:161-178).  Quadrilaterals
    are given by the list of their four vertices. *)
From Coq Require Import ZArith List Bool.
From Verif Require Import CBase Chain MeshModel PoolModel SubModel.
Import ListNotations.
Open Scope Z_scope.

(** A triangle: vertices and reference.  The other fields are only cleared. *)
Record tri : Type := mkTri { w0 : Z; w1 : Z; w2 : Z; wref : Z }.
(** [MG_EOK] *)
Definition wok (t : tri) : bool := 0 <? w0 t.
Definition wv (t : tri) (i : Z) : Z := if i =? 0 then w0 t else if i =? 1 then w1 t else w2 t.

(** Triangle pool: [mesh->nt], [nenil], [ntmax], [tria], [adja]. *)
Record tpool : Type := mkTP { wnt : Z; wnil : Z; wmax : Z; wtri : arr tri; wadj : option (arr Z) }.

(** [memset(&mesh->adja\[iadr\],0,3*sizeof(MMG5_int))], zaldy_2d.c:119-121 *)
Definition clear_adj3 (adj : option (arr Z)) (k : Z) : outcome (option (arr Z)) :=
  match adj with
  | None => Ret None
  | Some a => a' <- for_range (3 * (k - 1) + 1) (3 * (k - 1) + 3) (fun j a => wr a j 0) a ;; Ret (Some a')
  end.

(** [MMG2D_delElt], zaldy_2d.c:107-128; [MMGS_delElt], zaldy_s.c:93-110 *)
Definition delTri (s : tpool) (iel : Z) : outcome (Z * tpool) :=
  t <- rd (wtri s) iel ;;
  if negb (wok t) then Ret (0, s)
  else
    a <- wr (wtri s) iel (mkTri 0 0 (wnil s) 0) ;;
    adj <- clear_adj3 (wadj s) iel ;;
    nt <- (if iel =? wnt s then trim wok (S (Z.to_nat (wnt s))) a (wnt s) else Ret (wnt s)) ;;
    Ret (1, mkTP nt iel (wmax s) a adj).

(** tools.c:1084-1086 *)
Definition flag_vertices3 (a : arr point) (t : tri) : outcome (arr point) :=
  for_range 0 2 (fun i a => p <- rd a (wv t i) ;; wr a (wv t i) (with_flag p 1 (ptag p))) a.

(** tools.c:1092-1104 *)
Definition unlink3 (oa : option (arr Z)) (k : Z) : outcome (option (arr Z)) :=
  match oa with
  | None => Ret None
  | Some a =>
      a' <- for_range 0 2 (fun i a =>
              x <- rd a (3 * (k - 1) + 1 + i) ;;
              if x =? 0 then Ret a else wr a (3 * (Z.quot x 3 - 1) + 1 + Z.rem x 3) 0) a ;;
      Ret (Some a')
  end.

(** tools.c:1078-1108, the loop from [k]; [mesh->nt] is read at every turn. *)
Fixpoint keep_loop3 (fuel : nat) (nsd k : Z) (a : arr point) (e : tpool) : outcome (arr point * tpool) :=
  match fuel with
  | O => Stuck
  | S f =>
      if wnt e <? k then Ret (a, e)
      else
        t <- rd (wtri e) k ;;
        if negb (wok t) then keep_loop3 f nsd (k + 1) a e
        else
          a1 <- flag_vertices3 a t ;;
          if wref t =? nsd then keep_loop3 f nsd (k + 1) a1 e
          else
            adj <- unlink3 (wadj e) k ;;
            '(_, e1) <- delTri (mkTP (wnt e) (wnil e) (wmax e) (wtri e) adj) k ;;
            keep_loop3 f nsd (k + 1) a1 e1
  end.

(** [MMG2D_delPt], zaldy_2d.c:57-70; [MMGS_delPt], zaldy_s.c:59-70 *)
Definition delPt2 (s : vpool) (ip : Z) : outcome vpool :=
  a <- wr (vpt s) ip (mkP 0 0 0 (vnil s) 0 MG_NUL) ;;
  np <- (if ip =? vnp s then trim vok (S (Z.to_nat (vnp s))) a (vnp s) else Ret (vnp s)) ;;
  Ret (mkV np ip (vmax s) a (vxp s) (vxmax s)).

(** tools.c:1055-1057 *)
Fixpoint clean_pts2 (fuel : nat) (s : vpool) : outcome vpool :=
  match fuel with
  | O => Stuck
  | S f =>
      p <- rd (vpt s) (vnp s) ;;
      if vok p then Ret s else if vnp s =? 0 then Ret s
      else s1 <- delPt2 s (vnp s) ;; clean_pts2 f s1
  end.

(** [MMG5_mark_usedVertices], tools.c:1017-1060 *)
Definition mark_used3 (s : vpool) (e : tpool) (qd : arr (list Z)) (nq : Z) : outcome vpool :=
  a <- for_range 1 (vnp s) (fun k a =>
         p <- rd a k ;;
         if negb (pflag p =? 0) || (Z.land (ptag p) MG_REQ =? 0) then Ret a else revive a k) (vpt s) ;;
  a1 <- for_range 1 (wnt e) (fun k a =>
         t <- rd (wtri e) k ;;
         if negb (wok t) then Ret a else revive_all a [w0 t; w1 t; w2 t]) a ;;
  a2 <- for_range 1 nq (fun k a =>
         l <- rd qd k ;; if negb (prok l) then Ret a else revive_all a l) a1 ;;
  clean_pts2 (S (Z.to_nat (vnp s))) (set_vpt s a2).

(** [MMG2D_keep_only1Subdomain], [MMGS_keep_only1Subdomain] *)
Definition keep_only1_tri (nsd : Z) (s : vpool) (e : tpool) (qd : arr (list Z)) (nq : Z) : outcome (vpool * tpool) :=
  if nsd =? 0 then Ret (s, e)
  else
    s1 <- mark_unused s ;;
    '(a, e1) <- keep_loop3 (S (Z.to_nat (wnt e))) nsd 1 (vpt s1) e ;;
    s2 <- mark_used3 (set_vpt s1 a) e1 qd nq ;;
    Ret (s2, e1).
