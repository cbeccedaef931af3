(** Model of the slot allocators of vertices and tetrahedra,
    src/mmg3d/zaldy_3d.c and the growth macros of libmmg3d_private.h. *)
From Coq Require Import ZArith List Bool.
From Verif Require Import CBase Chain MeshModel.
Import ListNotations.
Open Scope Z_scope.

(** mmgcommon_private.h:148,157 *)
Definition MG_BDY : Z := 16.
Definition MG_NUL : Z := 32768.

(** [MMG5_Point], libmmgtypes.h:276-293.  The coordinates are one opaque number
    [pc] (they are only copied); [n], [s], [tagdel] and [src] are left out. *)
Record point := mkP { pc : Z; pref : Z; pxp : Z; ptmp : Z; pflag : Z; ptag : Z }.
Definition point0 : point := mkP 0 0 0 0 0 0.

(** [MG_VOK], mmgcommon_private.h:166 *)
Definition vok (p : point) : bool := ptag p <? MG_NUL.

Definition set_tmp (p : point) (x : Z) : point := mkP (pc p) (pref p) (pxp p) x (pflag p) (ptag p).

(** The vertex part of a mesh: [np], [npnil], [npmax], [point], [xp], [xpmax].
    The array [xpoint] has [xpmax+1] entries; its contents are not kept. *)
Record vpool := mkV { vnp : Z; vnil : Z; vmax : Z; vpt : arr point; vxp : Z; vxmax : Z }.

(** [for (k=lo; k<hi; k++) point\[k\].tmp = k+1] (zaldy_3d.c:327-330,
    libmmg3d_private.h:64-65) *)
Definition link_pts (lo hi : Z) (a : arr point) : outcome (arr point) :=
  for_range lo (hi - 1) (fun k a => p <- rd a k ;; wr a k (set_tmp p (k + 1))) a.

(** Vertex part of [MMG3D_setMeshSize_alloc], zaldy_3d.c:284-336.
    Simplification: the allocations succeed; [xpmax] is set later by the analysis
    and given here as an argument. *)
Definition alloc_pts (np npmax xpmax : Z) : outcome vpool :=
  a <- link_pts (np + 1) (npmax - 1) (acalloc (npmax + 1) point0) ;;
  Ret (mkV np (np + 1) npmax a 0 xpmax).

(** [MMG3D_newPt], zaldy_3d.c:39-78.  [grow] is the answer of
    [MMG5_TAB_RECALLOC] on [xpoint]: [Some g] when it grows by [g] entries,
    [None] when it is refused.  Simplification: [n], [tagdel], [src] are not kept. *)
Definition newPt (s : vpool) (c tag : Z) (grow : option Z) : outcome (Z * vpool) :=
  if vnil s =? 0 then Ret (0, s)
  else
    let cur := vnil s in
    let np := if vnp s <? vnil s then vnil s else vnp s in
    p <- rd (vpt s) cur ;;
    let nil := ptmp p in
    let p1 := mkP c 0 0 0 0 (ptag p) in
    if Z.land tag MG_BDY =? 0 then
      _ <- c_assert ((0 <=? tag) && (tag <=? MG_NUL * 2 - 1)) ;;
      a <- wr (vpt s) cur (mkP c 0 0 0 0 tag) ;;
      Ret (cur, mkV np nil (vmax s) a (vxp s) (vxmax s))
    else
      let xp := vxp s + 1 in
      if vxmax s <? xp then
        match grow with
        | None => a <- wr (vpt s) cur p1 ;; Ret (0, mkV np nil (vmax s) a xp (vxmax s))
        | Some g =>
          _ <- c_assert ((0 <=? tag) && (tag <=? MG_NUL * 2 - 1)) ;;
          a <- wr (vpt s) cur (mkP c 0 xp 0 0 tag) ;;
          Ret (cur, mkV np nil (vmax s) a xp (vxmax s + g))
        end
      else
        _ <- c_assert ((0 <=? tag) && (tag <=? MG_NUL * 2 - 1)) ;;
        a <- wr (vpt s) cur (mkP c 0 xp 0 0 tag) ;;
        Ret (cur, mkV np nil (vmax s) a xp (vxmax s)).

(** [MMG3D_delPt], zaldy_3d.c:80-97.  Clearing [xpoint\[xp\]] is kept as the
    bounds check it implies. *)
Definition delPt (s : vpool) (ip : Z) : outcome vpool :=
  p <- rd (vpt s) ip ;;
  _ <- (if pxp p =? 0 then Ret tt else c_assert ((0 <=? pxp p) && (pxp p <=? vxmax s))) ;;
  a <- wr (vpt s) ip (mkP 0 0 0 (vnil s) 0 MG_NUL) ;;
  np <- (if ip =? vnp s then trim vok (S (Z.to_nat (vnp s))) a (vnp s) else Ret (vnp s)) ;;
  Ret (mkV np ip (vmax s) a (vxp s) (vxmax s)).

(** [MMG3D_POINT_REALLOC], libmmg3d_private.h:54-94.  [gap] is the answer of
    [MMG5_TAB_RECALLOC] on [point] ([None]: refused), [solok] tells whether the
    growth of the solution succeeds.  The [law] of the macro is "give up": 0. *)
Definition growPt (s : vpool) (c tag : Z) (grow : option Z) (gap : option Z) (solok : bool) : outcome (Z * vpool) :=
  match gap with
  | None => Ret (0, s)
  | Some g =>
    let npmax := vmax s + g in
    a <- link_pts (vnp s + 1) (npmax - 1) (arecalloc (vpt s) (npmax + 1) point0) ;;
    if solok then newPt (mkV (vnp s) (vnp s + 1) npmax a (vxp s) (vxmax s)) c tag grow
    else Ret (0, mkV (vmax s - 1) 0 (vmax s) (arecalloc a (vmax s + 1) point0) (vxp s) (vxmax s))
  end.

(** Creation as written at every call site: try, else grow and try again
    (for instance split_3d.c:147-156 for elements). *)
Definition newPtR (s : vpool) (c tag : Z) (grow gap grow2 : option Z) (solok : bool) : outcome (Z * vpool) :=
  '(ip, s1) <- newPt s c tag grow ;;
  if ip =? 0 then growPt s1 c tag grow2 gap solok else Ret (ip, s1).

(** ** Tetrahedra *)

(** [ne], [nenil], [nemax], [tetra], [adja] ([None] for a null pointer). *)
Record epool := mkE { ene : Z; enil : Z; emax : Z; etet : arr tetra; eadj : option (arr Z) }.

(** zaldy_3d.c:332-333, libmmg3d_private.h:121-122 *)
Definition link_tets (lo hi : Z) (a : arr tetra) : outcome (arr tetra) :=
  for_range lo (hi - 1) (fun k a => t <- rd a k ;; wr a k (set_v3 t (k + 1))) a.

(** Tetrahedron part of [MMG3D_setMeshSize_alloc], zaldy_3d.c:284-336. *)
Definition alloc_tets (ne nemax : Z) : outcome epool :=
  a <- link_tets (ne + 1) (nemax - 1) (acalloc (nemax + 1) tetra0) ;;
  Ret (mkE ne (ne + 1) nemax a None).

(** [MMG3D_newElt], zaldy_3d.c:100-111 *)
Definition newElt (mark : Z) (s : epool) : outcome (Z * epool) :=
  if enil s =? 0 then Ret (0, s)
  else
    let cur := enil s in
    let ne := if ene s <? enil s then enil s else ene s in
    t <- rd (etet s) cur ;;
    a <- wr (etet s) cur (mkT (v0 t) (v1 t) (v2 t) 0 (tref t) (txt t) mark (tq t)) ;;
    Ret (cur, mkE ne (v3 t) (emax s) a (eadj s)).

(** [memset(&adja\[4*(iel-1)+1\],0,4)], zaldy_3d.c:135-137 *)
Definition clear_adj (oa : option (arr Z)) (iel : Z) : outcome (option (arr Z)) :=
  match oa with
  | None => Ret None
  | Some a => a' <- for_range (4 * (iel - 1) + 1) (4 * (iel - 1) + 4) (fun k a => wr a k 0) a ;; Ret (Some a')
  end.

(** [MMG3D_delElt], zaldy_3d.c:123-145 *)
Definition delElt (s : epool) (iel : Z) : outcome (Z * epool) :=
  t <- rd (etet s) iel ;;
  if negb (eok t) then Ret (0, s)
  else
    a <- wr (etet s) iel (set_v3 tetra0 (enil s)) ;;
    adj <- clear_adj (eadj s) iel ;;
    ne <- (if iel =? ene s then trim eok (S (Z.to_nat (ene s))) a (ene s) else Ret (ene s)) ;;
    Ret (1, mkE ne iel (emax s) a adj).

(** [MMG3D_TETRA_REALLOC], libmmg3d_private.h:99-135.  [adjok] tells whether the
    growth of [adja] succeeds.  The 32-bit overflow check is not modelled. *)
Definition growElt (mark : Z) (s : epool) (gap : option Z) (adjok : bool) : outcome (Z * epool) :=
  match gap with
  | None => Ret (0, s)
  | Some g =>
    let nemax := emax s + g in
    a <- link_tets (ene s + 1) (nemax - 1) (arecalloc (etet s) (nemax + 1) tetra0) ;;
    match eadj s with
    | None => newElt mark (mkE (ene s) (ene s + 1) nemax a None)
    | Some adj =>
      if adjok then newElt mark (mkE (ene s) (ene s + 1) nemax a (Some (arecalloc adj (4 * nemax + 5) 0)))
      else Ret (0, mkE (ene s) (ene s + 1) nemax a (Some adj))
    end
  end.

(** Call sites: create (growing when needed), then fill the new element with [t]
    (for instance split_3d.c:147-160). *)
Definition newEltR (mark : Z) (s : epool) (t : tetra) (gap : option Z) (adjok : bool) : outcome (Z * epool) :=
  '(iel, s1) <- newElt mark s ;;
  '(iel, s2) <- (if iel =? 0 then growElt mark s1 gap adjok else Ret (iel, s1)) ;;
  if iel =? 0 then Ret (0, s2)
  else a <- wr (etet s2) iel t ;; Ret (iel, mkE (ene s2) (enil s2) (emax s2) a (eadj s2)).

(** Overwriting an element in place. *)
Definition setElt (s : epool) (i : Z) (t : tetra) : outcome epool :=
  a <- wr (etet s) i t ;; Ret (mkE (ene s) (enil s) (emax s) a (eadj s)).

(** Loading the [ne] announced elements after the allocation
    ([MMG3D_Set_tetrahedra] or the file readers). *)
Definition load_tets (s : epool) (f : Z -> tetra) : outcome epool :=
  for_range 1 (ene s) (fun k s => setElt s k (f k)) s.

(** [MMG5_paktet], hash_3d.c:50-81: the compaction loop; [k] is the current index. *)
Fixpoint pak_loop (fuel : nat) (s : epool) (k : Z) : outcome (Z * epool) :=
  match fuel with
  | O => Stuck
  | S f =>
    t <- rd (etet s) k ;;
    '(r, s1) <- (if eok t then Ret (1, s)
                 else
                   t1 <- rd (etet s) (ene s) ;;
                   _ <- c_assert (eok t1) ;;
                   a <- wr (etet s) k t1 ;;
                   delElt (mkE (ene s) (enil s) (emax s) a (eadj s)) (ene s)) ;;
    if r =? 0 then Ret (0, s1)
    else if k + 1 <? ene s1 then pak_loop f s1 (k + 1) else Ret (1, s1)
  end.

Definition paktet (s : epool) : outcome (Z * epool) :=
  '(r, s1) <- pak_loop (S (Z.to_nat (ene s))) s 1 ;;
  if r =? 0 then Ret (0, s1)
  else
    _ <- c_assert (ene s1 <=? emax s1) ;;
    if ene s1 =? emax s1 then Ret (1, mkE (ene s1) 0 (emax s1) (etet s1) (eadj s1))
    else
      a <- link_tets (ene s1 + 1) (emax s1) (etet s1) ;;
      t <- rd a (emax s1) ;;
      a' <- wr a (emax s1) (set_v3 t 0) ;;
      Ret (1, mkE (ene s1) (ene s1 + 1) (emax s1) a' (eadj s1)).

(** ** Memory repartition, zaldy_3d.c:174-262 *)

(** Sizes in bytes of the C types. *)
Record sizes := mkSz { sz_point : Z; sz_xpoint : Z; sz_tetra : Z; sz_xtetra : Z; sz_tria : Z; sz_int : Z;
                       sz_hedge : Z; sz_double : Z; sz_prism : Z; sz_quad : Z }.

(** zaldy_3d.c:179-187; [MMG5_MEMMIN]=38 *)
Definition used_mem (z : sizes) (np nt ne nprism nquad : Z) : Z :=
  38 + (nprism * sz_prism z + nquad * sz_quad z)
  + (np + 1) * sz_point z + (nt + 1) * sz_tria z + (ne + 1) * sz_tetra z
  + (3 * nt + 1) * sz_int z + (4 * ne + 1) * sz_int z + (np + 1) * sz_double z.

(** zaldy_3d.c:200-203 *)
Definition pt_bytes (z : sizes) : Z :=
  sz_point z + sz_xpoint z + 6 * sz_tetra z + 2 * sz_xtetra z + 4 * 6 * sz_int z + 2 * 3 * sz_int z
  + 4 * sz_hedge z + 6 * sz_double z.

(** [MMG3D_memOption_memRepartition]: [None] when it fails, else the new
    (npmax, nemax).  The Scotch term and the 32-bit overflow check are left out. *)
Definition memRepartition (z : sizes) (memMax np nt ne nprism nquad npmax nemax : Z) : option (Z * Z) :=
  let used := used_mem z np nt ne nprism nquad in
  if memMax <? used then None
  else
    let npadd := (memMax - used) / (2 * pt_bytes z) in
    Some (Z.min npmax (np + npadd), Z.min nemax (6 * npadd + ne)).

(** Client writes to a live vertex: everything but [xp] may change; [tmp] is used
    as scratch by many functions. *)
Definition setPt (s : vpool) (i c ref tmp flag tag : Z) : outcome vpool :=
  p <- rd (vpt s) i ;;
  a <- wr (vpt s) i (mkP c ref (pxp p) tmp flag tag) ;;
  Ret (mkV (vnp s) (vnil s) (vmax s) a (vxp s) (vxmax s)).
