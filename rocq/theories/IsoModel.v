(** Model of the removal of the entities of a former isosurface:
    [MMG3D_skipIso] (src/mmg3d/API_functions_3d.c:1929-2005),
    [MMG3D_Clean_isoSurf] (src/mmg3d/libmmg3d_tools.c:1777-1849) and
    [MMG5_Clean_isoEdges] (src/common/libtools.c:368-453).

    The reallocation to the smaller size keeps the first entries and is assumed
    to succeed; messages and the counter [nref] are dropped. *)
From Coq Require Import ZArith List Bool.
From Verif Require Import CBase ApiModel.
Import ListNotations.
Open Scope Z_scope.

(** A triangle or an edge: first vertex ([v\[0\]], [a]), second vertex,
    reference, edge tag and the remaining data. *)
Record ent := mkI { i_a : Z; i_b : Z; i_ref : Z; i_tag : Z; i_data : Z }.
Definition ent0 : ent := mkI 0 0 0 0 0.
Definition with_ref (e : ent) (r : Z) : ent := mkI (i_a e) (i_b e) r (i_tag e) (i_data e).

(** [MMG5_abs(x->ref) == mesh->info.isoref] *)
Definition iso (r : Z) (e : ent) : bool := Z.abs (i_ref e) =? r.

(** ** [MMG3D_skipIso] *)

(** Lines 1946-1949 and 1977-1980:
    [do { p1 = &tab\[n\]; } while( iso(p1) && (k <= --n) );]
    gives the index of [p1] and the new [n]. *)
Fixpoint skip_seek (fuel : nat) (r : Z) (a : arr ent) (k n : Z) : outcome (Z * Z) :=
  match fuel with
  | O => Stuck
  | S f =>
      p1 <- rd a n ;;
      if iso r p1 then (if k <=? n - 1 then skip_seek f r a k (n - 1) else Ret (n, n - 1))
      else Ret (n, n)
  end.

(** Lines 1940-1954 (triangles, [edge = false]) and 1969-1987 (edges: the
    references are also made positive). *)
Definition skip_one (fuel : nat) (edge : bool) (r : Z) (k : Z) (a : arr ent) (n : Z) : outcome (arr ent * Z) :=
  p <- rd a k ;;
  if negb (iso r p) then
    if edge then a1 <- wr a k (with_ref p (Z.abs (i_ref p))) ;; Ret (a1, n) else Ret (a, n)
  else
    '(j, n1) <- skip_seek fuel r a k n ;;
    q <- rd a j ;;
    if negb (iso r q) then
      a1 <- wr a k q ;;
      (if edge then
         q1 <- rd a1 j ;; a2 <- wr a1 j (with_ref q1 (Z.abs (i_ref q1))) ;; Ret (a2, n1)
       else Ret (a1, n1))
    else Ret (a, n1).

Fixpoint skip_loop (fuel : nat) (edge : bool) (r : Z) (k : Z) (a : arr ent) (n : Z) : outcome (arr ent * Z) :=
  match fuel with
  | O => Stuck
  | S f =>
      '(a1, n1) <- skip_one fuel edge r k a n ;;
      if k + 1 <=? n1 then skip_loop f edge r (k + 1) a1 n1 else Ret (a1, n1)
  end.

(** The array and the number of entities left; [n] is the count and [cur] the
    reading cursor ([nti], [nai]), which the code uses as the last index. *)
Definition skip (edge : bool) (r : Z) (a : arr ent) (n cur : Z) : outcome (arr ent * Z) :=
  '(a1, c1) <- skip_loop (S (Z.to_nat (Z.max n cur))) edge r 1 a cur ;;
  Ret (a1, if c1 <? n then c1 else n).

(** ** [MMG3D_Clean_isoSurf], triangles *)

(** [MG_EOK] *)
Definition tok (e : ent) : bool := 0 <? i_a e.

(** Lines 1800-1804. *)
Fixpoint clean_seek (fuel : nat) (r : Z) (a : arr ent) (k n : Z) : outcome Z :=
  match fuel with
  | O => Stuck
  | S f =>
      p1 <- rd a n ;;
      if (negb (tok p1) || iso r p1) && (k <? n) then clean_seek f r a k (n - 1) else Ret n
  end.

(** Lines 1786-1818: body of the loop. *)
Definition clean_one (fuel : nat) (r : Z) (k : Z) (a : arr ent) (n : Z) : outcome (arr ent * Z) :=
  p <- rd a k ;;
  if negb (tok p) then Ret (a, n)
  else
    '(a1, n1) <- (if iso r p then
                    j <- clean_seek fuel r a k n ;;
                    q <- rd a j ;;
                    if negb (k =? j) then a1 <- wr a k q ;; Ret (a1, j - 1) else Ret (a, j)
                  else Ret (a, n)) ;;
    p1 <- rd a1 k ;;
    if i_ref p1 <? 0 then a2 <- wr a1 k (with_ref p1 (- i_ref p1)) ;; Ret (a2, n1) else Ret (a1, n1).

Fixpoint clean_loop (fuel : nat) (r : Z) (k : Z) (a : arr ent) (n : Z) : outcome (Z * arr ent * Z) :=
  match fuel with
  | O => Stuck
  | S f =>
      '(a1, n1) <- clean_one fuel r k a n ;;
      if k + 1 <? n1 then clean_loop f r (k + 1) a1 n1 else Ret (k + 1, a1, n1)
  end.

(** Lines 1781-1845 with [mesh->tria] allocated. *)
Definition Clean_isoTria (r : Z) (a : arr ent) (n : Z) : outcome (arr ent * Z) :=
  '(k, a1, n1) <- clean_loop (S (Z.to_nat n)) r 1 a n ;;
  _ <- c_assert ((k =? n1) || (k =? n1 + 1)) ;;
  p <- rd a1 n1 ;;
  Ret (a1, if negb (tok p) || iso r p then n1 - 1 else n1).

(** ** [MMG5_Clean_isoEdges] *)

(** [MMG5_should_edge_be_removed] (libtools.c:347-360). *)
Definition ridge_edge (e : ent) : bool := has (i_tag e) MG_GEO.
Definition to_remove (r : Z) (e : ent) : bool :=
  if i_a e =? 0 then true else iso r e && negb (ridge_edge e).

(** [MMG5_Clean_isoTags] (libtools.c:321-335) on the tags of the vertices. *)
Definition clear_if (b : Z) (t : arr Z) (v : Z) : outcome (arr Z) :=
  x <- rd t v ;; if has x b then wr t v (bset b false x) else Ret t.
Definition Clean_isoTags (t : arr Z) (e : ent) : outcome (arr Z) :=
  t1 <- clear_if MG_REQ t (i_a e) ;;
  t2 <- clear_if MG_REQ t1 (i_b e) ;;
  t3 <- clear_if MG_CRN t2 (i_a e) ;;
  clear_if MG_CRN t3 (i_b e).

(** Lines 396-409. *)
Fixpoint edge_seek (fuel : nat) (r : Z) (a : arr ent) (t : arr Z) (k n : Z) : outcome (arr Z * Z) :=
  match fuel with
  | O => Stuck
  | S f =>
      p1 <- rd a n ;;
      if to_remove r p1 && (k <? n) then
        t1 <- (if i_a p1 =? 0 then Ret t else Clean_isoTags t p1) ;;
        edge_seek f r a t1 k (n - 1)
      else Ret (t, n)
  end.

(** Lines 378-425: body of the loop. *)
Definition edge_one (fuel : nat) (r : Z) (k : Z) (a : arr ent) (t : arr Z) (n : Z) : outcome (arr ent * arr Z * Z) :=
  p <- rd a k ;;
  if i_a p =? 0 then Ret (a, t, n)
  else
    '(a1, t1, n1) <- (if iso r p then
                        t1 <- Clean_isoTags t p ;;
                        if negb (ridge_edge p) then
                          '(t2, j) <- edge_seek fuel r a t1 k n ;;
                          q <- rd a j ;;
                          (if negb (k =? j) then a1 <- wr a k q ;; Ret (a1, t2, j - 1) else Ret (a, t2, j))
                        else Ret (a, t1, n)
                      else Ret (a, t, n)) ;;
    p1 <- rd a1 k ;;
    if i_ref p1 <? 0 then a2 <- wr a1 k (with_ref p1 (- i_ref p1)) ;; Ret (a2, t1, n1) else Ret (a1, t1, n1).

Fixpoint edge_loop (fuel : nat) (r : Z) (k : Z) (a : arr ent) (t : arr Z) (n : Z) : outcome (Z * arr ent * arr Z * Z) :=
  match fuel with
  | O => Stuck
  | S f =>
      '(a1, t1, n1) <- edge_one fuel r k a t n ;;
      if k + 1 <? n1 then edge_loop f r (k + 1) a1 t1 n1 else Ret (k + 1, a1, t1, n1)
  end.

(** Lines 368-453 with [mesh->edge] allocated; the last test (431) compares the
    first vertex, not the reference. *)
Definition Clean_isoEdges (r : Z) (a : arr ent) (t : arr Z) (n : Z) : outcome (arr ent * arr Z * Z) :=
  '(k, a1, t1, n1) <- edge_loop (S (Z.to_nat n)) r 1 a t n ;;
  _ <- c_assert ((k =? n1) || (k =? n1 + 1)) ;;
  p <- rd a1 n1 ;;
  Ret (a1, t1, if (i_a p =? 0) || (Z.abs (i_a p) =? r) then n1 - 1 else n1).

(** ** Lists *)

(** Entities number 1 to [n]. *)
Definition seg (a : arr ent) (n : Z) : list ent := map (fun i => aget a (Z.of_nat i)) (seq 1 (Z.to_nat n)).
(** Reference without its sign. *)
Definition norm (e : ent) : ent := with_ref e (Z.abs (i_ref e)).
