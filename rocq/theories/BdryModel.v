(** Model of the check of the boundary triangles of a mesh of tetrahedra,
    [MMG5_chkBdryTria] and its steps (src/mmg3d/hash_3d.c:1265-1550, 1559-1950),
    as called by the analysis of an input mesh: no [xtetra] array yet.
    Simplifications: no prisms; the triangle arrays can be reallocated (only the
    growth of the hash tables may be refused); the first table is created with
    the given sizes (the products 0.51*n and 1.51*n are taken exactly). *)
From Coq Require Import ZArith List Bool.
From Verif Require Import CBase Chain MeshModel HashModel AdjaModel.
Import ListNotations.
Open Scope Z_scope.

(** Triangle: vertices, reference, [cc], and the remaining fields. *)
Record btri : Type := mkB { ba : Z; bb : Z; bc : Z; bref : Z; bcc : Z; bdat : Z }.
Definition btri0 : btri := mkB 0 0 0 0 0 0.
Definition set_cc (t : btri) (i : Z) : btri := mkB (ba t) (bb t) (bc t) (bref t) i (bdat t).
Definition set_a (t : btri) (a : Z) : btri := mkB a (bb t) (bc t) (bref t) (bcc t) (bdat t).
(** [MG_EOK] *)
Definition bok (t : btri) : bool := 0 <? ba t.

(** mmgcommon_private.h:148 *)
Definition BDY : Z := 16.

(** The loops over the faces of the elements
    [for (k=1; k<=mesh->ne; k++) ... for (i=0; i<4; i++)]. *)
Definition each_face {S} (ne : Z) (tet : arr tetra) (f : tetra -> Z -> Z -> S -> outcome S) (s : S) : outcome S :=
  for_range 1 ne (fun k s => t <- rd tet k ;; if eok t then for_range 0 3 (fun i s => f t k i s) s else Ret s) s.

(** Step 1: [MMG5_chkBdryTria_countBoundaries], hash_3d.c:1604-1620, without
    prisms nor [xtetra]. *)
Definition count_bdry (ne : Z) (tet : arr tetra) (adj : arr Z) : outcome Z :=
  each_face ne tet (fun t k i n =>
    x <- rd adj (4 * (k - 1) + 1 + i) ;;
    if x =? 0 then Ret (n + 1)
    else t1 <- rd tet (Z.quot x 4) ;; Ret (if tref t1 <? tref t then n + 1 else n)) 0.

(** A table that may have been lost: a failing [realloc] frees the array and
    nullifies the pointer (mmgcommon_private.h:386-393). *)
Definition otab : Type := option htab.
(** [MMG5_hashFace]: returns 0 when the growth of the table fails, because of the
    memory limit ([g = 0]: the table is kept, mmgcommon_private.h:415-423) or of
    [realloc] ([g < 0]: it is lost). *)
Definition ins_face (g : Z) (o : otab) (a b c k : Z) : outcome (Z * otab) :=
  match o with
  | None => Stuck
  | Some h =>
    '(v, h1) <- hashFace g h a b c k ;;
    Ret (v, if v =? 0 then if g <? 0 then None else Some (set_item h1 (mkArr (alen (hitem h)) (aget (hitem h1)))) else Some h1)
  end.
(** [MMG5_hashGetFace], hash_3d.c:84-111 ([if ( !hash->item ) return 0]). *)
Definition get_face (o : otab) (a b c : Z) : outcome Z :=
  match o with None => Ret 0 | Some h => hashGetFace h a b c end.

(** Memory: growth granted to the table when face [i] of element [k] is inserted. *)
Definition grants : Type := Z -> Z -> Z.

(** Step 2: [MMG5_chkBdryTria_hashBoundaries], hash_3d.c:1743-1783.  The state
    holds whether the function is still running. *)
Definition hash_bdry (opn : bool) (g : grants) (ntmesh ne : Z) (tet : arr tetra) (adj : arr Z) : outcome (bool * otab) :=
  h0 <- hashNew (51 * ntmesh / 100) (151 * ntmesh / 100) ;;
  let ins t k i (st : bool * otab) : outcome (bool * otab) :=
    if fst st then
      '(v, o) <- ins_face (g k i) (snd st) (fa t i) (fb t i) (fc t i) (4 * k + i) ;; Ret (negb (v =? 0), o)
    else Ret st in
  each_face ne tet (fun t k i st =>
    if opn then ins t k i st
    else if fst st then
      x <- rd adj (4 * (k - 1) + 1 + i) ;;
      st1 <- (if x =? 0 then ins t k i st else Ret st) ;;
      t1 <- rd tet (Z.quot x 4) ;;
      if tref t1 <? tref t then ins t k i st1 else Ret st1
    else Ret st) (true, Some h0).

(** Step 2.5: [MMG5_chkBdryTria_flagExtraTriangles], hash_3d.c:1813-1868.  State:
    running, table of the triangles seen, triangles, number of preserved ones. *)
Definition flag_extra (opn : bool) (g : Z -> Z) (nt : Z) (tet : arr tetra) (adj : arr Z) (elt : otab) (tri : arr btri) (ntpres : Z)
  : outcome (bool * arr btri * Z) :=
  h0 <- hashNew (51 * nt / 100) (151 * nt / 100) ;;
  '(ok, _, tri1, np) <- for_range 1 nt (fun k (st : bool * otab * arr btri * Z) =>
    let '(ok, seen, tri, np) := st in
    if negb ok then Ret st
    else
      t <- rd tri k ;;
      i <- get_face elt (ba t) (bb t) (bc t) ;;
      '(j, seen1) <- ins_face (g k) seen (ba t) (bb t) (bc t) k ;;
      let t1 := set_cc t i in
      tri1 <- wr tri k t1 ;;
      if j =? 0 then Ret (false, seen1, tri1, np)
      else if 0 <? j then tri2 <- wr tri1 k (set_a t1 0) ;; Ret (true, seen1, tri2, np)
      else if i =? 0 then tri2 <- wr tri1 k (set_a t1 0) ;; Ret (true, seen1, tri2, np)
      else if opn then
        x <- rd adj (4 * (Z.quot i 4 - 1) + 1 + Z.rem i 4) ;;
        if x =? 0 then Ret (true, seen1, tri1, np)
        else
          t0 <- rd tet (Z.quot i 4) ;; t2 <- rd tet (Z.quot x 4) ;;
          Ret (true, seen1, tri1, if tref t0 =? tref t2 then np + 1 else np)
      else Ret (true, seen1, tri1, np)) (true, Some h0, tri, ntpres) ;;
  Ret (ok, tri1, np).

(** [MMG5_chkBdryTria_deleteExtraTriangles], hash_3d.c:1870-1902, with
    [permtria] NULL.  Gives the new count and the array. *)
Definition delete_extra (nt : Z) (tri : arr btri) : outcome (Z * arr btri) :=
  '(n, nbl, tri1) <- for_range 1 nt (fun k (st : Z * Z * arr btri) =>
    let '(n, nbl, tri) := st in
    t <- rd tri k ;;
    if negb (bok t) then Ret st
    else
      tri1 <- (if k =? nbl then Ret tri else wr tri nbl t) ;;
      Ret (n + 1, nbl + 1, tri1)) (0, 1, tri) ;;
  if nt - n =? 0 then Ret (nt, tri1) else Ret (n, arecalloc tri1 (n + 1) btri0).

(** [point->tag |= MG_BDY] on the vertices of triangle [t] *)
Definition tag_tri (p : arr Z) (t : btri) : outcome (arr Z) :=
  x <- rd p (ba t) ;; p1 <- wr p (ba t) (Z.lor x BDY) ;;
  y <- rd p1 (bb t) ;; p2 <- wr p1 (bb t) (Z.lor y BDY) ;;
  z <- rd p2 (bc t) ;; wr p2 (bc t) (Z.lor z BDY).

(** [MMG5_bdryTria], hash_3d.c:1265-1550, no prism, no [xtetra].  [iref r r1] is
    the reference given to an interface: the smallest of the two outside level-set
    mode (line 1420), [isoref] on the level-set (1411-1412).  [gt] grants
    memory to the table of the given triangles.  Result: (return value,
    triangles, count, point tags). *)
Definition bdry_tria (iso : bool) (iref : Z -> Z -> Z) (gt : Z -> Z) (ntmesh nt ne : Z) (tet : arr tetra) (adj : arr Z)
           (tri : arr btri) (ptag : arr Z) : outcome (Z * arr btri * Z * arr Z) :=
  o <- (if nt =? 0 then Ret None else h <- hashNew (51 * nt / 100) (151 * nt / 100) ;; Ret (Some h)) ;;
  '(ok, o1, p1) <- for_range 1 nt (fun k (st : bool * otab * arr Z) =>
    let '(ok, o, p) := st in
    if negb ok then Ret st
    else
      t <- rd tri k ;;
      '(v, o1) <- ins_face (gt k) o (ba t) (bb t) (bc t) k ;;
      if v =? 0 then Ret (false, o1, p)
      else if iso then Ret (true, o1, p) else p1 <- tag_tri p t ;; Ret (true, o1, p1)) (true, o, ptag) ;;
  if negb ok then Ret (0, tri, nt, p1)
  else
    '(tri2, nt2, p2) <-
      (if ntmesh =? nt then Ret (tri, nt, p1)
       else each_face ne tet (fun t k i (st : arr btri * Z * arr Z) =>
         let '(tri, n, p) := st in
         x <- rd adj (4 * (k - 1) + 1 + i) ;;
         t1 <- rd tet (Z.quot x 4) ;;
         if negb (Z.quot x 4 =? 0) && (tref t <=? tref t1) then Ret st
         else
           kt <- get_face o1 (fa t i) (fb t i) (fc t i) ;;
           if negb (kt =? 0) then Ret st
           else
             old <- rd tri (n + 1) ;;
             let nw := mkB (fa t i) (fb t i) (fc t i) (if Z.quot x 4 =? 0 then tref t else iref (tref t) (tref t1)) (4 * k + i) (bdat old) in
             tri1 <- wr tri (n + 1) nw ;;
             p' <- tag_tri p nw ;;
             Ret (tri1, n + 1, p')) (tri, nt, p1)) ;;
    _ <- c_assert (nt2 =? ntmesh) ;;
    p3 <- (if ntmesh =? nt then Ret p2 else for_range 1 nt2 (fun k p => t <- rd tri2 k ;; tag_tri p t) p2) ;;
    Ret (1, tri2, nt2, p3).

(** Step 3: [MMG5_chkBdryTria_addMissingTriangles], hash_3d.c:1912-1949 *)
Definition add_missing (iso : bool) (iref : Z -> Z -> Z) (gt : Z -> Z) (ntmesh nt ne : Z) (tet : arr tetra) (adj : arr Z)
           (tri : arr btri) (ptag : arr Z) : outcome (Z * arr btri * Z * arr Z) :=
  if nt =? ntmesh then
    p <- for_range 1 nt (fun k p => t <- rd tri k ;; tag_tri p t) ptag ;;
    Ret (1, tri, nt, p)
  else
    tri1 <- (if nt =? 0 then Ret (acalloc (ntmesh + 1) btri0)
             else _ <- c_assert (nt <? ntmesh) ;; Ret (arecalloc tri (ntmesh + 1) btri0)) ;;
    bdry_tria iso iref gt ntmesh nt ne tet adj tri1 ptag.

(** [MMG5_chkBdryTria], hash_3d.c:1559-1584.  The codes returned by the steps are
    stored in [ier] and not read: the function returns 1. *)
Definition chk_bdry (opn iso : bool) (iref : Z -> Z -> Z) (ge : grants) (gs gt : Z -> Z) (nt ne : Z) (tet : arr tetra) (adj : arr Z)
           (tri : arr btri) (ptag : arr Z) : outcome (Z * arr btri * Z * arr Z) :=
  ntmesh <- count_bdry ne tet adj ;;
  '(tri1, nt1, ntpres) <-
    (if nt =? 0 then Ret (tri, nt, 0)
     else
       '(_, elt) <- hash_bdry opn ge ntmesh ne tet adj ;;
       '(_, tri1, np) <- flag_extra opn gs nt tet adj elt tri 0 ;;
       '(n, tri2) <- delete_extra nt tri1 ;;
       Ret (tri2, n, np)) ;;
  '(_, tri2, nt2, p) <- add_missing iso iref gt (ntmesh + ntpres) nt1 ne tet adj tri1 ptag ;;
  Ret (1, tri2, nt2, p).
