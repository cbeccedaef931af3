(** Model of the packing functions of src/mmg3d/libmmg3d.c (build without Scotch). *)
From Coq Require Import ZArith List Bool.
From Verif Require Import CBase Chain MeshModel PoolModel.
Import ListNotations.
Open Scope Z_scope.

(** mmgcommon_private.h:146,149,150 *)
Definition MG_REQ : Z := 4.
Definition MG_CRN : Z := 32.
Definition MG_NOSURF : Z := 64.

(** Going down to the last used point, not below [k]:
    [while ( !MG_VOK(ppt) && k < np ) { --np; ppt = &point\[np\]; }]
    (libmmg3d.c:219-222, 454-458) *)
Fixpoint last_used (fuel : nat) (a : arr point) (k np : Z) : outcome Z :=
  match fuel with
  | O => Stuck
  | S f => p <- rd a np ;; if negb (vok p) && (k <? np) then last_used f a k (np - 1) else Ret np
  end.

(** [tag & MG_NOSURF] handling, libmmg3d.c:237-240 *)
Definition unsurf (tag : Z) : Z :=
  if Z.land tag MG_NOSURF =? 0 then tag else Z.ldiff (Z.ldiff tag MG_NOSURF) MG_REQ.

(** libmmg3d.c:235-244 *)
Definition mark1 (p : point) (k : Z) : point :=
  mkP (pc p) (Z.abs (pref p)) (pxp p) k (pflag p) (unsurf (ptag p)).

(** Main loop of [MMG3D_mark_packedPoints], libmmg3d.c:212-247.  Result: points,
    [k], [*np] and the number of corners at the exit of the loop. *)
Fixpoint mark_loop (fuel : nat) (a : arr point) (k np nc : Z) : outcome (arr point * Z * Z * Z) :=
  match fuel with
  | O => Stuck
  | S f =>
    p <- rd a k ;;
    np' <- (if vok p then Ret np else last_used (S (Z.to_nat np)) a k (np - 1)) ;;
    let q := if vok p then k else np' in
    p' <- rd a q ;;
    _ <- c_assert (vok p' || (k =? np')) ;;
    _ <- c_assert (negb (k =? np') || negb (vok p')) ;;
    if k =? np' then Ret (a, k, np', nc)
    else
      a' <- wr a q (mark1 p' k) ;;
      let nc' := if Z.land (unsurf (ptag p')) MG_CRN =? 0 then nc else nc + 1 in
      if k + 1 <? np' then mark_loop f a' (k + 1) np' nc' else Ret (a', k + 1, np', nc')
  end.

(** [MMG3D_mark_packedPoints], libmmg3d.c:200-262, with its debug checks.
    Result: points, number of packed points, number of corners. *)
Definition mark_packedPoints (n : Z) (a : arr point) : outcome (arr point * Z * Z) :=
  a <- for_range 1 n (fun k a => p <- rd a k ;; wr a k (set_tmp p 0)) a ;;
  '(a, k, np, nc) <- mark_loop (S (Z.to_nat n)) a 1 (n + 1) 0 ;;
  _ <- c_assert (k =? np) ;;
  _ <- for_range 1 n (fun k u => p <- rd a k ;; c_assert (negb (vok p) || negb (ptmp p =? 0))) tt ;;
  Ret (a, np - 1, nc).

(** [MMG3D_update_eltsVertices] restricted to tetrahedra, libmmg3d.c:807-821 *)
Definition upd_tetra (pts : arr point) (t : tetra) : outcome tetra :=
  a <- rd pts (v0 t) ;; b <- rd pts (v1 t) ;; c <- rd pts (v2 t) ;; d <- rd pts (v3 t) ;;
  Ret (mkT (ptmp a) (ptmp b) (ptmp c) (ptmp d) (tref t) (txt t) (tmark t) (tq t)).
Definition update_eltsVertices (pts : arr point) (ne : Z) (tet : arr tetra) : outcome (arr tetra) :=
  for_range 1 ne (fun k tet => t <- rd tet k ;; if eok t then t' <- upd_tetra pts t ;; wr tet k t' else Ret tet) tet.

(** Copying the [size] values of a vertex: [m\[isol+i\] = m\[isol1+i\]], libmmg3d.c:449-451 *)
Definition copy_sol (size : Z) (m : arr Z) (k np : Z) : outcome (arr Z) :=
  for_range 0 (size - 1) (fun i m => x <- rd m (np * size + i) ;; wr m (k * size + i) x) m.

(** Main loop of [MMG3D_pack_sol], libmmg3d.c:438-460 *)
Fixpoint sol_loop (fuel : nat) (pts : arr point) (size : Z) (m : arr Z) (k np : Z) : outcome (arr Z * Z) :=
  match fuel with
  | O => Stuck
  | S f =>
    p <- rd pts k ;;
    '(m', np') <- (if vok p then Ret (m, np)
                   else
                     q <- rd pts np ;;
                     _ <- c_assert (vok q) ;;
                     m' <- copy_sol size m k np ;;
                     np' <- last_used (S (Z.to_nat np)) pts k (np - 1) ;;
                     Ret (m', np')) ;;
    if k + 1 <? np' then sol_loop f pts size m' (k + 1) np' else Ret (m', np')
  end.

(** [MMG3D_pack_sol], libmmg3d.c:423-466.  Values are opaque numbers. *)
Definition pack_sol (n : Z) (pts : arr point) (size : Z) (m : arr Z) : outcome (arr Z * Z) :=
  np <- trim vok (S (Z.to_nat n)) pts n ;;
  sol_loop (S (Z.to_nat n)) pts size m 1 np.

(** Deleting the trailing unused points, libmmg3d.c:478-480 *)
Fixpoint del_tail (fuel : nat) (s : vpool) : outcome vpool :=
  match fuel with
  | O => Stuck
  | S f => p <- rd (vpt s) (vnp s) ;;
           if negb (vok p) && negb (vnp s =? 0) then s' <- delPt s (vnp s) ;; del_tail f s' else Ret s
  end.

(** Main loop of [MMG3D_pack_pointArray], libmmg3d.c:482-507.  The copy of the
    normals is not modelled. *)
Fixpoint pts_loop (fuel : nat) (a : arr point) (k np : Z) : outcome (arr point * Z) :=
  match fuel with
  | O => Stuck
  | S f =>
    p <- rd a k ;;
    '(a', np') <- (if vok p then Ret (a, np)
                   else
                     q <- rd a np ;;
                     _ <- c_assert (vok q) ;;
                     a1 <- wr a k q ;;
                     a2 <- wr a1 np (mkP 0 0 0 0 0 MG_NUL) ;;
                     np' <- trim vok (S (Z.to_nat np)) a2 np ;;
                     Ret (a2, np')) ;;
    if k + 1 <? np' then pts_loop f a' (k + 1) np' else Ret (a', np')
  end.

(** [MMG3D_pack_pointArray], libmmg3d.c:472-526 *)
Definition pack_pointArray (s : vpool) : outcome vpool :=
  s <- del_tail (S (Z.to_nat (vnp s))) s ;;
  '(a, np) <- pts_loop (S (Z.to_nat (vnp s))) (vpt s) 1 (vnp s) ;;
  a <- for_range 1 np (fun k a => p <- rd a k ;; wr a k (set_tmp p 0)) a ;;
  let nil := if vmax s - 1 <=? np then 0 else np + 1 in
  a <- (if nil =? 0 then Ret a else link_pts nil (vmax s - 1) a) ;;
  Ret (mkV np nil (vmax s) a (vxp s) (vxmax s)).

(** [MMG3D_pack_points], libmmg3d.c:853-866 *)
Definition pack_points (s : vpool) (ne : Z) (tet : arr tetra) : outcome (vpool * arr tetra * Z) :=
  '(a, np, nc) <- mark_packedPoints (vnp s) (vpt s) ;;
  tet <- update_eltsVertices a ne tet ;;
  s <- pack_pointArray (mkV (vnp s) (vnil s) (vmax s) a (vxp s) (vxmax s)) ;;
  Ret (s, tet, nc).

(** Body of the adjacency update of [MMG3D_pack_tetraAndAdja], libmmg3d.c:297-304:
    element [ne] becomes element [k]. *)
Definition move_adja (adj : arr Z) (k ne : Z) : outcome (arr Z) :=
  for_range 0 3 (fun i adj =>
    x <- rd adj (4 * (ne - 1) + 1 + i) ;;
    adj <- wr adj (4 * (k - 1) + 1 + i) x ;;
    if x =? 0 then Ret adj
    else wr adj (4 * (x / 4 - 1) + 1 + x mod 4) (4 * k + i)) adj.

(** Main loop of [MMG3D_pack_tetraAndAdja], libmmg3d.c:283-311, and of
    [MMG3D_pack_tetra], libmmg3d.c:344-354 (no adjacency). *)
Fixpoint tet_loop (fuel : nat) (s : epool) (k : Z) : outcome (Z * epool) :=
  match fuel with
  | O => Stuck
  | S f =>
    t <- rd (etet s) k ;;
    '(r, s1) <- (if eok t then Ret (1, s)
                 else
                   t1 <- rd (etet s) (ene s) ;;
                   _ <- c_assert (eok t1) ;;
                   a <- wr (etet s) k t1 ;;
                   adj <- (match eadj s with None => Ret None | Some adj => x <- move_adja adj k (ene s) ;; Ret (Some x) end) ;;
                   delElt (mkE (ene s) (enil s) (emax s) a adj) (ene s)) ;;
    if r =? 0 then Ret (0, s1)
    else if k + 1 <? ene s1 then tet_loop f s1 (k + 1) else Ret (1, s1)
  end.

(** [MMG3D_pack_tetraAndAdja], libmmg3d.c:275-324 ([eadj] allocated), and
    [MMG3D_pack_tetra], libmmg3d.c:335-369 ([eadj] null). *)
Definition pack_tetra (s : epool) : outcome (Z * epool) :=
  if ene s =? 0 then Ret (1, s)
  else
    '(r, s) <- tet_loop (S (Z.to_nat (ene s))) s 1 ;;
    if r =? 0 then Ret (0, s)
    else
      let nil := if emax s - 1 <=? ene s then 0 else ene s + 1 in
      a <- (if nil =? 0 then Ret (etet s)
            else match eadj s with
                 | Some _ => link_tets nil (emax s - 1) (etet s)
                 | None => for_range nil (emax s - 2)
                             (fun k a => t <- rd a k ;; wr a k (mkT 0 (v1 t) (v2 t) (v3 t) (tref t) (txt t) (tmark t) (tq t))) (etet s)
                 end) ;;
      Ret (1, mkE (ene s) nil (emax s) a (eadj s)).

(** The packing part of [MMG3D_packMesh], libmmg3d.c:905-946, for a mesh made of
    tetrahedra, with one solution of [size] values per vertex.  Not modelled:
    removal of subdomains (see C28), prisms and quadrilaterals, the boundary. *)
Definition packMesh (s : vpool) (e : epool) (size : Z) (m : arr Z) : outcome (Z * vpool * epool * arr Z * Z) :=
  '(r, e) <- pack_tetra e ;;
  if r =? 0 then Ret (0, s, e, m, 0)
  else
    '(m, solnp) <- pack_sol (vnp s) (vpt s) size m ;;
    '(s, tet, nc) <- pack_points s (ene e) (etet e) ;;
    _ <- c_assert (solnp =? vnp s) ;;
    Ret (1, s, mkE (ene e) (enil e) (emax e) tet (eadj e), m, nc).
