(** Local operators of a triangular mesh (mmg2d): edge swap, edge split, point
    insertion in a triangle, ball of a vertex and vertex collapse.

    A triangle keeps its three vertices, the tags and the references of its
    three edges and its reference; the fields [flag], [base] and [qual] are not
    modelled.  A point keeps its tag only: its coordinates never enter these
    functions (the geometric tests are made before, by the callers), and the
    free list of the points is not modelled.  Local numbers are [0], [1], [2];
    edge [i] is opposite to vertex [i]; the neighbour of triangle [k] through
    edge [i] is stored at [3*(k-1)+1+i] as [3*l+j], or [0] on the boundary. *)
From Coq Require Import ZArith List Lia Bool.
From Verif Require Import CBase.
Import ListNotations.
Open Scope Z_scope.

(** [MMG5_Tria], libmmgtypes.h (the modelled fields). *)
Record tria := mkTria { tv : Z -> Z; ttag : Z -> Z; tedg : Z -> Z; tref : Z }.

(** A triangle after [memset(pt,0,sizeof(MMG5_Tria))]. *)
Definition tzero : tria := mkTria (fun _ => 0) (fun _ => 0) (fun _ => 0) 0.

(** [MMG5_inxt2], [MMG5_iprv2], common/mmgcommon_private.h:585-586. *)
Definition inxt2 (i : Z) : Z := if i =? 0 then 1 else if i =? 1 then 2 else 0.
Definition iprv2 (i : Z) : Z := if i =? 0 then 2 else if i =? 1 then 0 else 1.

(** Tags, common/mmgcommon_private.h:145-157, and [MG_EDG], [MG_SIN], [MG_EOK], [MG_VOK],
    common/mmgcommon_private.h:166-173. *)
Definition MG_REF := 1.
Definition MG_GEO := 2.
Definition MG_REQ := 4.
Definition MG_CRN := 32.
Definition MG_NUL := 32768.
Definition has_tag (t b : Z) : bool := negb (Z.land t b =? 0).
Definition MG_EDG (t : Z) : bool := has_tag t MG_GEO || has_tag t MG_REF.
Definition MG_SIN (t : Z) : bool := has_tag t MG_CRN || has_tag t MG_REQ.
Definition MG_EOK (t : tria) : bool := 0 <? tv t 0.
Definition MG_VOK (t : Z) : bool := t <? MG_NUL.

(** The mesh.  [m_gaps] lists what the memory budget allows for the successive
    enlargements of the triangle table: the number of triangles added, and
    whether the memory of the adjacency table follows; an empty list means that
    the enlargement is refused. *)
Record mesh := mkMesh {
  m_tri : arr tria; m_adj : arr Z; m_ptag : arr Z;
  m_nil : Z; m_nt : Z; m_ntmax : Z; m_gaps : list (Z * bool) }.

Definition p_tri (m : mesh) (a : arr tria) := mkMesh a (m_adj m) (m_ptag m) (m_nil m) (m_nt m) (m_ntmax m) (m_gaps m).
Definition p_adjs (m : mesh) (a : arr Z) := mkMesh (m_tri m) a (m_ptag m) (m_nil m) (m_nt m) (m_ntmax m) (m_gaps m).
Definition p_pts (m : mesh) (a : arr Z) := mkMesh (m_tri m) (m_adj m) a (m_nil m) (m_nt m) (m_ntmax m) (m_gaps m).
Definition p_nil (m : mesh) (n : Z) := mkMesh (m_tri m) (m_adj m) (m_ptag m) n (m_nt m) (m_ntmax m) (m_gaps m).
Definition p_nt (m : mesh) (n : Z) := mkMesh (m_tri m) (m_adj m) (m_ptag m) (m_nil m) n (m_ntmax m) (m_gaps m).

(** Field accesses of the C code. *)
Definition get_t (m : mesh) (k : Z) : outcome tria := rd (m_tri m) k.
Definition set_t (m : mesh) (k : Z) (t : tria) : outcome mesh :=
  a <- wr (m_tri m) k t ;; Ret (p_tri m a).
Definition set_v (m : mesh) (k i x : Z) : outcome mesh :=
  t <- get_t m k ;; set_t m k (mkTria (upd (tv t) i x) (ttag t) (tedg t) (tref t)).
Definition set_tag (m : mesh) (k i x : Z) : outcome mesh :=
  t <- get_t m k ;; set_t m k (mkTria (tv t) (upd (ttag t) i x) (tedg t) (tref t)).
Definition set_edg (m : mesh) (k i x : Z) : outcome mesh :=
  t <- get_t m k ;; set_t m k (mkTria (tv t) (ttag t) (upd (tedg t) i x) (tref t)).
Definition get_adj (m : mesh) (k i : Z) : outcome Z := rd (m_adj m) (3 * (k - 1) + 1 + i).
Definition set_adj (m : mesh) (k i x : Z) : outcome mesh :=
  a <- wr (m_adj m) (3 * (k - 1) + 1 + i) x ;; Ret (p_adjs m a).
Definition set_pt (m : mesh) (p x : Z) : outcome mesh :=
  a <- wr (m_ptag m) p x ;; Ret (p_pts m a).

(** [MMG2D_newElt], mmg2d/zaldy_2d.c:87-104; [0] when the free list is empty. *)
Definition newElt (m : mesh) : outcome (Z * mesh) :=
  if m_nil m =? 0 then Ret (0, m)
  else
    let cur := m_nil m in
    let m := if m_nt m <? cur then p_nt m cur else m in
    t <- get_t m cur ;;
    let m := p_nil m (tv t 2) in
    m <- set_t m cur (mkTria (upd (tv t) 2 0) (ttag t) (fun _ => 0) 0) ;;
    Ret (cur, m).

(** [MMG2D_TRIA_REALLOC], mmg2d/libmmg2d_private.h:148-182: the triangle table
    grows by [g], the new triangles are chained in the free list from
    [mesh->nt+1] to [mesh->ntmax-1], then the adjacency table grows, if the
    memory allows it, and [MMG2D_newElt] is called again.  Returns [0] when
    [law] (here [return 0]) is executed. *)
Definition tria_realloc (m : mesh) : outcome (Z * mesh) :=
  match m_gaps m with
  | [] => Ret (0, m)
  | (g, adjok) :: gs =>
      let old := m_ntmax m in
      let mx := old + g in
      let tri := mkArr (mx + 1) (fun k => if k <? old + 1 then aget (m_tri m) k else tzero) in
      let m := mkMesh tri (m_adj m) (m_ptag m) (m_nt m + 1) (m_nt m) mx gs in
      m <- for_range (m_nt m + 1) (mx - 2) (fun k m => set_v m k 2 (k + 1)) m ;;
      if adjok then
        newElt (p_adjs m (arecalloc (m_adj m) (3 * mx + 5) 0))
      else Ret (0, m)
  end.

(** [iel = MMG2D_newElt(mesh); if ( !iel ) MMG2D_TRIA_REALLOC(...)].  The flag
    tells that the table was reallocated: a pointer to a triangle obtained
    before is then dangling. *)
Definition newElt_re (m : mesh) : outcome (Z * bool * mesh) :=
  ' (iel, m) <- newElt m ;;
  if iel =? 0 then ' (iel, m) <- tria_realloc m ;; Ret (iel, true, m)
  else Ret (iel, false, m).

(** The loop [while ( !MG_EOK(&mesh->tria[mesh->nt]) && mesh->nt ) mesh->nt--]. *)
Fixpoint shrink_nt (m : mesh) (fuel : nat) : outcome mesh :=
  match fuel with
  | O => Ret m
  | S f =>
      t <- get_t m (m_nt m) ;;
      if negb (MG_EOK t) && negb (m_nt m =? 0) then shrink_nt (p_nt m (m_nt m - 1)) f
      else Ret m
  end.

(** [MMG2D_delElt], mmg2d/zaldy_2d.c:107-128 (the adjacency table exists). *)
Definition delElt (m : mesh) (iel : Z) : outcome (Z * mesh) :=
  t <- get_t m iel ;;
  if negb (MG_EOK t) then Ret (0, m)
  else
    m <- set_t m iel (mkTria (upd (fun _ => 0) 2 (m_nil m)) (fun _ => 0) (fun _ => 0) 0) ;;
    m <- set_adj m iel 0 0 ;;
    m <- set_adj m iel 1 0 ;;
    m <- set_adj m iel 2 0 ;;
    let m := p_nil m iel in
    m <- (if iel =? m_nt m then shrink_nt m (S (Z.to_nat (m_nt m))) else Ret m) ;;
    Ret (1, m).

(** [MMG2D_delPt], mmg2d/zaldy_2d.c:57-70 (the tag only). *)
Definition delPt (m : mesh) (p : Z) : outcome mesh := set_pt m p MG_NUL.

(** [MMG2D_swapar], mmg2d/swapar_2d.c:221-272. *)
Definition swapar (m : mesh) (k i : Z) : outcome (Z * mesh) :=
  pt <- get_t m k ;;
  if MG_EDG (ttag pt i) || MG_SIN (ttag pt i) then Ret (0, m)
  else
    a <- get_adj m k i ;;
    _ <- c_assert (negb (a =? 0)) ;;
    let adj := a / 3 in
    let j := a mod 3 in
    let i1 := inxt2 i in
    let i2 := iprv2 i in
    a1 <- get_adj m k i1 ;;
    let k11 := a1 / 3 in
    let v11 := a1 mod 3 in
    let jj := inxt2 j in
    let j2 := iprv2 j in
    a2 <- get_adj m adj jj ;;
    let k21 := a2 / 3 in
    let v21 := a2 mod 3 in
    pt1 <- get_t m adj ;;
    m <- set_v m k i2 (tv pt1 j) ;;
    pt <- get_t m k ;;
    m <- set_v m adj j2 (tv pt i) ;;
    pt1 <- get_t m adj ;;
    m <- set_tag m k i (ttag pt1 jj) ;;
    m <- set_edg m k i (tedg pt1 jj) ;;
    pt <- get_t m k ;;
    m <- set_tag m adj j (ttag pt i1) ;;
    m <- set_edg m adj j (tedg pt i1) ;;
    m <- set_tag m k i1 0 ;;
    m <- set_edg m k i1 0 ;;
    m <- set_tag m adj jj 0 ;;
    m <- set_edg m adj jj 0 ;;
    m <- set_adj m k i (3 * k21 + v21) ;;
    m <- (if negb (k21 =? 0) then set_adj m k21 v21 (3 * k + i) else Ret m) ;;
    m <- set_adj m k i1 (3 * adj + jj) ;;
    m <- set_adj m adj jj (3 * k + i1) ;;
    m <- (if negb (k11 =? 0) then set_adj m k11 v11 (3 * adj + j) else Ret m) ;;
    m <- set_adj m adj j (3 * k11 + v11) ;;
    Ret (1, m).

(** [memcpy] of a triangle and of its adjacency, mmg2d/split_2d.c:270-271. *)
Definition copy_elt (m : mesh) (dst src : Z) : outcome mesh :=
  t <- get_t m src ;;
  m <- set_t m dst t ;;
  a0 <- get_adj m src 0 ;;
  a1 <- get_adj m src 1 ;;
  a2 <- get_adj m src 2 ;;
  m <- set_adj m dst 0 a0 ;;
  m <- set_adj m dst 1 a1 ;;
  set_adj m dst 2 a2.

(** One of the two triangles of a split edge, mmg2d/split_2d.c:269-293
    ([c = i1], [d = i2]) and 310-328 ([c = j2], [d = j1]): triangle [new] takes
    the part of [k] beyond point [ip], with the outer edge [c]. *)
Definition half_split (m : mesh) (k new c d ip : Z) : outcome mesh :=
  m <- copy_elt m new k ;;
  m <- set_v m k d ip ;;
  m <- set_v m new c ip ;;
  m <- set_tag m k c 0 ;;
  m <- set_edg m k c 0 ;;
  m <- set_tag m new d 0 ;;
  m <- set_edg m new d 0 ;;
  b <- get_adj m k c ;;
  let mel := b / 3 in
  let mm := b mod 3 in
  m <- set_adj m k c (3 * new + d) ;;
  m <- set_adj m new d (3 * k + c) ;;
  (if negb (mel =? 0) then set_adj m mel mm (3 * new + c) else Ret m).

(** [MMG2D_split1b], mmg2d/split_2d.c:244-332: splits edge [i] of triangle [k]
    at point [ip]. *)
Definition split1b (m : mesh) (k i ip : Z) : outcome (Z * mesh) :=
  ' (iel, _, m) <- newElt_re m ;;
  if iel =? 0 then Ret (0, m)
  else
    a <- get_adj m k i ;;
    let jel := a / 3 in
    let j := a mod 3 in
    m <- half_split m k iel (inxt2 i) (iprv2 i) ip ;;
    if jel =? 0 then Ret (1, m)
    else
      ' (kel, _, m) <- newElt_re m ;;
      if kel =? 0 then Ret (0, m)
      else
        m <- half_split m jel kel (iprv2 j) (inxt2 j) ip ;;
        m <- set_adj m iel i (3 * kel + j) ;;
        m <- set_adj m kel j (3 * iel + i) ;;
        Ret (1, m).

(** The call of [MMG2D_split1b] in [MMG2D_adpspl], mmg2d/mmg2d1.c:680-688: when
    the split fails the new point is deleted and the remeshing goes on. *)
Definition adpspl_split (m : mesh) (k i ip : Z) : outcome (Z * mesh) :=
  ' (ier, m) <- split1b m k i ip ;;
  if ier =? 0 then m <- delPt m ip ;; Ret (0, m) else Ret (ier, m).

(** Conversion to [int8_t] (two's complement, as all compilers do). *)
Definition int8 (x : Z) : Z := (x + 128) mod 256 - 128.

(** [MMG2D_splitbar], mmg2d/split_2d.c:721-834, after the three tests on the
    areas (lines 741-759): inserts point [ip] inside triangle [k].  [pt] is
    taken before the allocations and used after (lines 778-803), so a
    reallocation makes it dangling.  [dbg] tells that the code was compiled
    without NDEBUG: the assertions of lines 812-817 are evaluated. *)
Definition splitbar (dbg : bool) (m : mesh) (k ip : Z) : outcome (Z * mesh) :=
  ' (iel1, mv1, m) <- newElt_re m ;;
  if iel1 =? 0 then Ret (0, m)
  else
    ' (iel2, mv2, m) <- newElt_re m ;;
    if iel2 =? 0 then Ret (0, m)
    else
      if mv1 || mv2 then Stuck
      else
        a0 <- get_adj m k 0 ;;
        a1 <- get_adj m k 1 ;;
        a2 <- get_adj m k 2 ;;
        let jel0 := a0 / 3 in
        let j0 := a0 mod 3 in
        let jel1 := int8 (a1 / 3) in
        let j1 := int8 (a1 mod 3) in
        let jel2 := a2 / 3 in
        let j2 := a2 mod 3 in
        m <- copy_elt m iel1 k ;;
        m <- copy_elt m iel2 k ;;
        m <- set_v m k 1 ip ;;
        m <- set_v m iel1 2 ip ;;
        m <- set_v m iel2 0 ip ;;
        m <- set_tag m k 1 0 ;;
        m <- set_edg m k 1 0 ;;
        m <- set_tag m iel1 2 0 ;;
        m <- set_edg m iel1 2 0 ;;
        m <- set_tag m iel2 0 0 ;;
        m <- set_edg m iel2 0 0 ;;
        _ <- (if dbg then
                b <- get_adj m k 1 ;;
                _ <- c_assert (b =? 3 * jel1 + j1) ;;
                if negb (jel1 =? 0) then b <- get_adj m jel1 j1 ;; c_assert (b =? 3 * k + 1)
                else Ret tt
              else Ret tt) ;;
        m <- set_adj m iel1 2 (3 * jel2 + j2) ;;
        m <- (if negb (jel2 =? 0) then set_adj m jel2 j2 (3 * iel1 + 2) else Ret m) ;;
        m <- set_adj m iel2 0 (3 * jel0 + j0) ;;
        m <- (if negb (jel0 =? 0) then set_adj m jel0 j0 (3 * iel2 + 0) else Ret m) ;;
        m <- set_adj m k 0 (3 * iel2 + 1) ;;
        m <- set_adj m iel2 1 (3 * k + 0) ;;
        m <- set_adj m k 2 (3 * iel1 + 1) ;;
        m <- set_adj m iel1 1 (3 * k + 2) ;;
        m <- set_adj m iel1 0 (3 * iel2 + 2) ;;
        m <- set_adj m iel2 2 (3 * iel1 + 0) ;;
        Ret (1, m).

(** [MMG5_boulet] with [s = 0], common/boulep.c:363-418: the ball of vertex [ip]
    of triangle [start].  [room] is the number of entries that may still be
    stored ([MMG5_TRIA_LMAX-1] at the call); [None] is the return value [0].
    The first loop turns in one direction until it comes back or meets the
    boundary; the result tells which. *)
Fixpoint boulet_fwd (m : mesh) (start : Z) (room : nat) (k i : Z) : outcome (option (list Z * bool * nat)) :=
  match room with
  | O => Ret None
  | S r =>
      a <- get_adj m k (inxt2 i) ;;
      let k' := a / 3 in
      if k' =? 0 then Ret (Some ([3 * k + i], false, r))
      else if k' =? start then Ret (Some ([3 * k + i], true, r))
      else
        res <- boulet_fwd m start r k' (inxt2 (a mod 3)) ;;
        match res with
        | None => Ret None
        | Some (l, c, r) => Ret (Some ((3 * k + i) :: l, c, r))
        end
  end.

(** The second loop (lines 403-415): the other direction, until the boundary.
    The C loop has no other stop; the fuel is the room plus one. *)
Fixpoint boulet_bwd (m : mesh) (room : nat) (k i : Z) : outcome (option (list Z)) :=
  a <- get_adj m k (iprv2 i) ;;
  if a / 3 =? 0 then Ret (Some [])
  else
    match room with
    | O => Ret None
    | S r =>
        let k' := a / 3 in
        let i' := iprv2 (a mod 3) in
        res <- boulet_bwd m r k' i' ;;
        match res with
        | None => Ret None
        | Some l => Ret (Some ((3 * k' + i') :: l))
        end
    end.

Definition LMAX := 1024%nat.

Definition boulet (m : mesh) (start ip : Z) : outcome (option (list Z)) :=
  res <- boulet_fwd m start (LMAX - 1) start ip ;;
  match res with
  | None => Ret None
  | Some (l, true, _) => Ret (Some l)
  | Some (l, false, r) =>
      res <- boulet_bwd m r start ip ;;
      match res with None => Ret None | Some l' => Ret (Some (l ++ l')) end
  end.

(** Entry [n] of the list filled by [MMG5_boulet]. *)
Definition lget (l : list Z) (n : Z) : outcome Z :=
  if n <? 0 then Stuck else match nth_error l (Z.to_nat n) with Some x => Ret x | None => Stuck end.

(** Joins triangle [jel] (edge [j]) to the neighbour of triangle [iel] through
    edge [i1], mmg2d/colver_2d.c:303-321 and 329-349. *)
Definition col_link (m : mesh) (iel i1 jel j : Z) : outcome mesh :=
  pt <- get_t m iel ;;
  pt1 <- get_t m jel ;;
  m <- set_tag m jel j (Z.lor (ttag pt1 j) (ttag pt i1)) ;;
  m <- set_edg m jel j (Z.max (tedg pt1 j) (tedg pt i1)) ;;
  a <- get_adj m iel i1 ;;
  if negb (a =? 0) then
    let kel := a / 3 in
    let kk := a mod 3 in
    m <- set_adj m kel kk (3 * jel + j) ;;
    m <- set_adj m jel j (3 * kel + kk) ;;
    pt1 <- get_t m jel ;;
    pt2 <- get_t m kel ;;
    m <- set_tag m kel kk (Z.lor (ttag pt2 kk) (ttag pt1 j)) ;;
    set_edg m kel kk (Z.max (tedg pt1 j) (tedg pt2 kk))
  else set_adj m jel j 0.

(** [MMG2D_colver], mmg2d/colver_2d.c:273-356. *)
Definition colver (m : mesh) (list : list Z) : outcome (Z * mesh) :=
  let ilist := Z.of_nat (length list) in
  l0 <- lget list 0 ;;
  let iel := l0 / 3 in
  let i1 := l0 mod 3 in
  let i := iprv2 i1 in
  let i2 := inxt2 i1 in
  pt <- get_t m iel ;;
  let ip1 := tv pt i1 in
  let ip2 := tv pt i2 in
  a <- get_adj m iel i ;;
  let open := if a =? 0 then 1 else 0 in
  t2 <- rd (m_ptag m) ip2 ;;
  t1 <- rd (m_ptag m) ip1 ;;
  m <- set_pt m ip2 (Z.lor t2 t1) ;;
  m <- for_range 1 (ilist - 2 + open)
         (fun k m => x <- lget list k ;; set_v m (x / 3) (x mod 3) ip2) m ;;
  l1 <- lget list 1 ;;
  m <- col_link m iel i1 (l1 / 3) (iprv2 (l1 mod 3)) ;;
  m <- (if open =? 0 then
          ln <- lget list (ilist - 1) ;;
          lp <- lget list (ilist - 2) ;;
          col_link m (ln / 3) (ln mod 3) (lp / 3) (inxt2 (lp mod 3))
        else Ret m) ;;
  m <- delPt m ip1 ;;
  ' (_, m) <- delElt m iel ;;
  if open =? 0 then
    ln <- lget list (ilist - 1) ;;
    ' (_, m) <- delElt m (ln / 3) ;;
    Ret (1, m)
  else Ret (1, m).

(** [MMG2D_colver3], mmg2d/colver_2d.c:359-418. *)
Definition colver3 (m : mesh) (list : list Z) : outcome (Z * mesh) :=
  l0 <- lget list 0 ;;
  let iel := l0 / 3 in
  let i := l0 mod 3 in
  let i1 := inxt2 i in
  pt <- get_t m iel ;;
  let ip := tv pt i in
  l1 <- lget list 1 ;;
  let jel := l1 / 3 in
  let j := l1 mod 3 in
  let j1 := inxt2 j in
  let j2 := iprv2 j in
  l2 <- lget list 2 ;;
  let kel := l2 / 3 in
  let k := l2 mod 3 in
  pt2 <- get_t m kel ;;
  m <- set_v m jel j (tv pt i1) ;;
  pt1 <- get_t m jel ;;
  m <- set_tag m jel j1 (Z.lor (ttag pt1 j1) (ttag pt2 k)) ;;
  m <- set_edg m jel j1 (Z.max (tedg pt1 j1) (tedg pt2 k)) ;;
  pt1 <- get_t m jel ;;
  m <- set_tag m jel j2 (Z.lor (ttag pt1 j2) (ttag pt i)) ;;
  m <- set_edg m jel j2 (Z.max (tedg pt1 j2) (tedg pt i)) ;;
  a <- get_adj m kel k ;;
  m <- set_adj m jel j1 a ;;
  b <- get_adj m iel i ;;
  m <- set_adj m jel j2 b ;;
  pt1 <- get_t m jel ;;
  let mel := b / 3 in
  m <- (if negb (mel =? 0) then
          let mm := b mod 3 in
          m <- set_tag m mel mm (ttag pt1 j2) ;;
          m <- set_edg m mel mm (tedg pt1 j2) ;;
          set_adj m mel mm (3 * jel + j2)
        else Ret m) ;;
  a <- get_adj m jel j1 ;;
  pt1 <- get_t m jel ;;
  let mel := a / 3 in
  m <- (if negb (mel =? 0) then
          let mm := a mod 3 in
          m <- set_tag m mel mm (ttag pt1 j1) ;;
          m <- set_edg m mel mm (tedg pt1 j1) ;;
          set_adj m mel mm (3 * jel + j1)
        else Ret m) ;;
  m <- delPt m ip ;;
  ' (_, m) <- delElt m iel ;;
  ' (_, m) <- delElt m kel ;;
  Ret (1, m).

(** [MMG2D_colver2], mmg2d/colver_2d.c:421-460. *)
Definition colver2 (m : mesh) (list : list Z) : outcome (Z * mesh) :=
  l0 <- lget list 0 ;;
  let iel := l0 / 3 in
  let i1 := l0 mod 3 in
  let i2 := inxt2 i1 in
  pt <- get_t m iel ;;
  let ip1 := tv pt i1 in
  let ip2 := tv pt i2 in
  l1 <- lget list 1 ;;
  let jel := l1 / 3 in
  let j2 := l1 mod 3 in
  let jj := iprv2 j2 in
  m <- set_v m jel j2 ip2 ;;
  pt1 <- get_t m jel ;;
  m <- set_tag m jel jj (Z.lor (ttag pt1 jj) (ttag pt i1)) ;;
  m <- set_edg m jel jj (tedg pt i1) ;;
  a <- get_adj m iel i1 ;;
  m <- set_adj m jel jj a ;;
  let kel := a / 3 in
  let k := a mod 3 in
  m <- (if negb (kel =? 0) then set_adj m kel k (3 * jel + jj) else Ret m) ;;
  m <- delPt m ip1 ;;
  ' (_, m) <- delElt m iel ;;
  Ret (1, m).

(** The collapse of edge [i] of triangle [k] as made by [MMG2D_adpcol],
    mmg2d/mmg2d1.c:734-747 (the same code is in [MMG2D_colelt], 490-503), once
    the tests of [MMG2D_chkcol] (mmg2d/colver_2d.c:42-270) that do not depend on
    the ball only have succeeded: that function calls [MMG5_boulet] (line 91) and
    refuses a ball of one triangle, and a closed ball of two (lines 246-248). *)
Definition collapse (m : mesh) (k i : Z) : outcome (Z * mesh) :=
  res <- boulet m k (inxt2 i) ;;
  a <- get_adj m k i ;;
  let open := a =? 0 in
  match res with
  | None => Ret (0, m)
  | Some list =>
      let n := length list in
      if (3 <? n)%nat || ((n =? 3)%nat && open) then colver m list
      else if (n =? 3)%nat then colver3 m list
      else if (n =? 2)%nat && open then colver2 m list
      else Ret (0, m)
  end.
