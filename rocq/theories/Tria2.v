(** The triangles and edges of Mmg2d: [MMG2D_hashTria], [MMG2D_assignEdge] and
    the edges made by [MMG2D_pack] (/repo/src/mmg2d/hash_2d.c).

    Not modelled: quadrilaterals ([mesh->nquad] is 0), the failure of the
    allocations other than the growth of the edge table, the [base] field of
    the edges made, [MMG2D_keep_only1Subdomain] (it does nothing when [info.nsd]
    is 0). *)
From Coq Require Import ZArith List Bool Lia.
From Verif Require Import CBase HashModel SurfModel.
Import ListNotations.
Open Scope Z_scope.

(** A triangle ([MMG5_Tria], libmmgtypes.h:332-348): vertices, tags and
    references of the three edges, reference. *)
Record tri : Type := mkTri { t_v : Z -> Z; t_tag : Z -> Z; t_edg : Z -> Z; t_ref : Z }.
Definition set_tg (f : Z -> Z) (t : tri) : tri := mkTri (t_v t) f (t_edg t) (t_ref t).
Definition set_ed (f : Z -> Z) (t : tri) : tri := mkTri (t_v t) (t_tag t) f (t_ref t).
(** MG_EOK, mmgcommon_private.h:167. *)
Definition t_eok (t : tri) : bool := 0 <? t_v t 0.

(** An edge ([MMG5_Edge], libmmgtypes.h). *)
Record edge : Type := mkE { e_a : Z; e_b : Z; e_ref : Z; e_tag : Z }.
Definition edge0 : edge := mkE 0 0 0 0.

(** [MMG2D_idir], libmmg2d_private.h: {0,1,2,0,1}; [nx i] is [MMG2D_idir\[i+1\]]
    and [pv i] is [MMG2D_idir\[i+2\]]. *)

(** ** [MMG2D_hashTria] (hash_2d.c:35-134) *)

(** Ends of the edge [i] (hash_2d.c:70-80, 98-103, 112-123). *)
Definition emin (t : tri) (i : Z) : Z := Z.min (t_v t (nx i)) (t_v t (pv i)).
Definition emax (t : tri) (i : Z) : Z := Z.max (t_v t (nx i)) (t_v t (pv i)).

(** hash_2d.c:83; [KTA], [KTB] are 7 and 11. *)
Definition ekey2 (hsize mins maxs : Z) : outcome Z :=
  if hsize =? 0 then Stuck else Ret (Z.rem (7 * mins + 11 * maxs) hsize + 1).

(** The hash table (hash_2d.c:63-90).  State: (link, hcode). *)
Definition first2 (nt : Z) (a : arr tri) (link hcode : arr Z) : outcome (arr Z * arr Z) :=
  for_range 1 nt (fun k st =>
    t <- rd a k ;;
    if t_v t 0 =? 0 then Ret st
    else
      for_range 0 2 (fun i st2 =>
        let '(link, hcode) := st2 in
        key <- ekey2 nt (emin t i) (emax t i) ;;
        let iadr := 3 * (k - 1) + i + 1 in
        h <- rd hcode key ;;
        link' <- wr link iadr h ;;
        hcode' <- wr hcode key (- iadr) ;;
        Ret (link', hcode')) st) (link, hcode).

(** The [while] loop (hash_2d.c:109-130). *)
Fixpoint seek2 (fuel : nat) (inival : Z) (a : arr tri) (link : arr Z)
         (l k i mins maxs ll pp : Z) : outcome (arr Z) :=
  match fuel with
  | O => Stuck
  | S f =>
    if ll =? inival then Ret link
    else
      let kk := Z.quot (ll - 1) 3 + 1 in
      let ii := Z.rem (ll - 1) 3 in
      t1 <- rd a kk ;;
      if (emin t1 ii =? mins) && (emax t1 ii =? maxs) then
        link1 <- (if pp =? 0 then Ret link else x <- rd link ll ;; wr link pp x) ;;
        link2 <- wr link1 l (3 * kk + ii) ;;
        wr link2 ll (3 * k + i)
      else
        x <- rd link ll ;;
        seek2 f inival a link l k i mins maxs (- x) ll
  end.

(** The adjacents (hash_2d.c:93-131). *)
Definition second2 (inival nt : Z) (a : arr tri) (link : arr Z) : outcome (arr Z) :=
  for_down (3 * nt) 0 (fun l link =>
    x <- rd link l ;;
    if 0 <=? x then Ret link
    else
      let k := Z.quot (l - 1) 3 + 1 in
      let i := Z.rem (l - 1) 3 in
      t <- rd a k ;;
      link1 <- wr link l 0 ;;
      seek2 (S (Z.to_nat l)) inival a link1 l k i (emin t i) (emax t i) (- x) 0) link.

(** [MMG2D_hashTria] on a mesh without adjacencies and with triangles;
    [inival] is [MMG5_INTMAX]. *)
Definition hash2 (inival nt ntmax : Z) (a : arr tri) : outcome (arr Z) :=
  hcode <- for_range 0 nt (fun k h => wr h k (- inival)) (acalloc (nt + 1) 0) ;;
  '(link, _) <- first2 nt a (acalloc (3 * ntmax + 5) 0) hcode ;;
  second2 inival nt a link.

(** ** [MMG2D_assignEdge] (hash_2d.c:334-436) *)

Definition G_REF : Z := 1.
Definition G_GEO : Z := 2.
Definition G_REQ : Z := 4.
Definition G_BDY : Z := 16.
Definition G_CRN : Z := 32.
Definition G_NOSURF : Z := 64.

(** [tag & MG_REQ] for the three edges: left alone, else the three marks are
    removed (hash_2d.c:360-373). *)
Definition unreq (t : tri) : tri :=
  if tst (t_tag t 0) G_REQ && tst (t_tag t 1) G_REQ && tst (t_tag t 2) G_REQ then t
  else set_tg (fun i => Z.ldiff (t_tag t i) G_REQ) t.

Definition unreq_all (nt : Z) (a : arr tri) : outcome (arr tri) :=
  for_range 1 nt (fun k a => t <- rd a k ;; if t_eok t then wr a k (unreq t) else Ret a) a.

(** The table of the edges (hash_2d.c:379-395); [gr k] is the growth granted
    for the edge [k]; [None] is the return value 0. *)
Definition hash_edges (na : Z) (gr : Z -> Z) (ed : arr edge) : outcome (option htab) :=
  h <- hashNew na (3 * na) ;;
  for_range 1 na (fun k o =>
    match o with
    | None => Ret None
    | Some h =>
        e <- rd ed k ;;
        '(r, h) <- hashEdge (gr k) h (e_a e) (e_b e) k ;;
        if r =? 0 then Ret None else Ret (Some h)
    end) (Some h).

(** One edge of a triangle (hash_2d.c:402-412): the edge between the vertices
    [i] and [i1] has number [i2]. *)
Definition assign1 (h : htab) (ed : arr edge) (i : Z) (t : tri) : outcome tri :=
  let i1 := nx i in
  ia <- hashGet h (t_v t i) (t_v t i1) ;;
  if ia =? 0 then Ret t
  else
    let i2 := nx i1 in
    e <- rd ed ia ;;
    Ret (set_tg (upd (t_tag t) i2 (Z.lor (t_tag t i2) (e_tag e))) (set_ed (upd (t_edg t) i2 (e_ref e)) t)).

Definition assign_all (nt : Z) (h : htab) (ed : arr edge) (a : arr tri) : outcome (arr tri) :=
  for_range 1 nt (fun k a =>
    t <- rd a k ;;
    if t_eok t then
      t <- assign1 h ed 0 t ;; t <- assign1 h ed 1 t ;; t <- assign1 h ed 2 t ;; wr a k t
    else Ret a) a.

(** [MMG2D_assignEdge]; [first] says that [info.metRidTyp] is 0.  [None] is the
    return value 0; the edge table is deleted and [mesh->na] is 0 afterwards. *)
Definition assign_edges (first : bool) (nt na : Z) (gr : Z -> Z) (ed : arr edge) (a : arr tri)
  : outcome (option (arr tri)) :=
  a <- (if first then unreq_all nt a else Ret a) ;;
  if na =? 0 then Ret (Some a)
  else
    o <- hash_edges na gr ed ;;
    match o with
    | None => Ret None
    | Some h => a <- assign_all nt h ed a ;; Ret (Some a)
    end.

(** ** The edges of [MMG2D_pack] (hash_2d.c:585-706) *)

(** Edges frozen by Mmg are released (hash_2d.c:593-596). *)
Definition thaw (tag : Z) : Z :=
  if tst tag G_NOSURF then Z.ldiff (Z.ldiff tag G_REQ) G_NOSURF else tag.

(** MG_SIN, mmgcommon_private.h:169. *)
Definition t_sin (tag : Z) : bool := tst tag G_CRN || tst tag G_REQ.

(** Whether an edge is counted (hash_2d.c:598-610). *)
Definition counted (opn : bool) (iel ref ref1 tag : Z) : outcome bool :=
  if (iel =? 0) || (ref1 <? ref) then Ret true
  else if (ref =? ref1) && t_sin tag then Ret true
  else if opn then
    if tst tag G_REF || tst tag G_BDY then
      _ <- c_assert (tst tag (G_REF + G_BDY)) ;; Ret true
    else Ret false
  else Ret false.

(** First pass (hash_2d.c:585-612).  State: (triangles, [mesh->na]). *)
Definition count_edges (opn : bool) (nt : Z) (adj : arr Z) (a : arr tri) : outcome (arr tri * Z) :=
  for_range 1 nt (fun k st =>
    t <- rd (fst st) k ;;
    if t_eok t then
      for_range 0 2 (fun i st =>
        let '(a, na) := st in
        t <- rd a k ;;
        x <- rd adj (3 * (k - 1) + 1 + i) ;;
        let iel := Z.quot x 3 in
        let t := set_tg (upd (t_tag t) i (thaw (t_tag t i))) t in
        a <- wr a k t ;;
        t1 <- rd a iel ;;
        b <- counted opn iel (t_ref t) (t_ref t1) (t_tag t i) ;;
        Ret (a, if b : bool then na + 1 else na)) st
    else Ret st) (a, 0).

(** Whether an edge is stored (hash_2d.c:681-684). *)
Definition stored (opn : bool) (iel ref ref1 tag : Z) : bool :=
  (iel =? 0) || (ref1 <? ref) || ((ref =? ref1) && t_sin tag)
  || (opn && (tst tag G_REF || tst tag G_BDY)).

(** Second pass (hash_2d.c:667-697).  State: (edges, [ned]). *)
Definition store_edges (opn : bool) (nt : Z) (adj : arr Z) (a : arr tri) (ed : arr edge)
  : outcome (arr edge * Z) :=
  for_range 1 nt (fun k st =>
    t <- rd a k ;;
    if t_eok t then
      for_range 0 2 (fun i st =>
        let '(ed, ned) := st in
        x <- rd adj (3 * (k - 1) + 1 + i) ;;
        let iel := Z.quot x 3 in
        t1 <- rd a iel ;;
        if stored opn iel (t_ref t) (t_ref t1) (t_tag t i) then
          ed <- wr ed (ned + 1) (mkE (t_v t (nx i)) (t_v t (pv i)) (t_edg t i) (t_tag t i)) ;;
          Ret (ed, ned + 1)
        else Ret (ed, ned)) st
    else Ret st) (ed, 0).

(** Both passes: triangles, number of edges, edges (before the vertices are
    renumbered).  The table has [na+1] cells, the first is not used; when
    [na = 0] there is no table. *)
Definition pack_edges (opn : bool) (nt : Z) (adj : arr Z) (a : arr tri)
  : outcome (arr tri * Z * arr edge) :=
  '(a, na) <- count_edges opn nt adj a ;;
  if na =? 0 then Ret (a, 0, acalloc 0 edge0)
  else
    '(ed, _) <- store_edges opn nt adj a (acalloc (na + 1) edge0) ;;
    Ret (a, na, ed).
