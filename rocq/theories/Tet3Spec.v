(** What a conforming tetrahedral mesh is, stated on the arrays of the C code. *)
From Coq Require Import ZArith List Lia Bool.
From Verif Require Import CBase Tet3Model.
Import ListNotations.
Open Scope Z_scope.

(** Local numbers. *)
Definition loc (i : Z) : Prop := i = 0 \/ i = 1 \/ i = 2 \/ i = 3.

(** Tetrahedron [k] is in the table and in use. *)
Definition live (m : mesh) (k : Z) : Prop := 1 <= k < alen (m_tet m) /\ 0 < qv (aget (m_tet m) k) 0.

(** Vertex and neighbour. *)
Definition vtx (m : mesh) (k i : Z) : Z := qv (aget (m_tet m) k) i.
Definition nb (m : mesh) (k i : Z) : Z := aget (m_adj m) (4 * (k - 1) + 1 + i).

(** Point [p] is a vertex of tetrahedron [k]; of its face [i] (opposite to vertex [i]). *)
Definition has (m : mesh) (k p : Z) : Prop := exists a, loc a /\ vtx m k a = p.
Definition on_face (m : mesh) (k i p : Z) : Prop := exists a, loc a /\ a <> i /\ vtx m k a = p.

(** The two faces have the same vertices. *)
Definition same_face (m : mesh) (k i l j : Z) : Prop := forall p, on_face m k i p <-> on_face m l j p.

(** The four vertices of a tetrahedron are different. *)
Definition vertices_ok (m : mesh) : Prop :=
  forall k, live m k -> (forall a, loc a -> 0 < vtx m k a) /\ (forall a b, loc a -> loc b -> vtx m k a = vtx m k b -> a = b).

(** The adjacency table says exactly which tetrahedra share a face; at most two do. *)
Definition adjacent (m : mesh) : Prop :=
  forall k i, live m k -> loc i ->
  (nb m k i = 0 /\ forall l j, live m l -> loc j -> same_face m k i l j -> l = k /\ j = i) \/
  (exists l j, live m l /\ loc j /\ nb m k i = 4 * l + j /\ (l <> k \/ j <> i) /\ same_face m k i l j /\
     forall l' j', live m l' -> loc j' -> same_face m k i l' j' -> (l' = k /\ j' = i) \/ (l' = l /\ j' = j)).

(** The free list: tetrahedra that are not in use, each of them once. *)
Inductive chain (m : mesh) : Z -> list Z -> Prop :=
| chain_nil : chain m 0 []
| chain_cons : forall k l, 1 <= k < m_nemax m -> ~ live m k -> ~ In k l ->
    chain m (vtx m k 3) l -> chain m k (k :: l).

(** Nothing is lost: what is not in use is in the free list. *)
Definition full (m : mesh) (l : list Z) : Prop := forall k, 1 <= k < m_nemax m -> live m k \/ In k l.

(** The tables.  The last tetrahedron of the table is never used: the C code chains
    the free tetrahedra up to [mesh->nemax-1] only. *)
Definition tables_ok (m : mesh) : Prop :=
  alen (m_tet m) = m_nemax m + 1 /\ alen (m_adj m) = 4 * m_nemax m + 5 /\
  0 <= m_ne m < m_nemax m /\ vtx m (m_nemax m) 3 = 0 /\
  (forall k, live m k -> k <= m_ne m) /\ (exists l, chain m (m_nil m) l /\ full m l) /\
  (forall g b, In (g, b) (m_gaps m) -> 1 <= g) /\ (m_ne m = 0 \/ live m (m_ne m)).

Definition conforming (m : mesh) : Prop := tables_ok m /\ vertices_ok m /\ adjacent m.

(** Two tetrahedra have a common face that holds [p]; that holds [p] and [q]. *)
Definition meet1 (m : mesh) (p y z : Z) : Prop :=
  exists i j, loc i /\ loc j /\ same_face m y i z j /\ on_face m y i p.
Definition meet2 (m : mesh) (p q y z : Z) : Prop :=
  exists i j, loc i /\ loc j /\ same_face m y i z j /\ on_face m y i p /\ on_face m y i q.

(** One goes from [x] to a tetrahedron through such faces. *)
Inductive reach (m : mesh) (R : Z -> Z -> Prop) (x : Z) : Z -> Prop :=
| reach_refl : reach m R x x
| reach_step : forall y z, reach m R x y -> live m z -> R y z -> reach m R x z.

(** [k] is in the same ball of [p] as [start]; in the same shell of [p], [q]. *)
Definition ball (m : mesh) (p start k : Z) : Prop := reach m (meet1 m p) start k.
Definition shell (m : mesh) (p q start k : Z) : Prop := reach m (meet2 m p q) start k.

(** All tetrahedra with vertex [p] (with the edge [p], [q]) are joined through faces. *)
Definition ball_connected (m : mesh) (p : Z) : Prop :=
  forall x y, live m x -> live m y -> has m x p -> has m y p -> ball m p x y.
Definition shell_connected (m : mesh) (p q : Z) : Prop :=
  forall x y, live m x -> live m y -> has m x p -> has m x q -> has m y p -> has m y q -> shell m p q x y.

(** The flags of the last visits. *)
Definition flags_ok (m : mesh) : Prop := forall k, live m k -> qflag (aget (m_tet m) k) <= m_base m.

(** No two tetrahedra have the same four vertices. *)
Definition no_twins (m : mesh) : Prop :=
  forall k l, live m k -> live m l -> (forall x, has m k x <-> has m l x) -> k = l.

(** Wherever [p] and [q] are joined to the same two points by a face, the four points are those of a tetrahedron. *)
Definition contractible (m : mesh) (p q : Z) : Prop :=
  forall k i l j, live m k -> live m l -> loc i -> loc j -> on_face m k i p -> on_face m l j q ->
  (forall x, x <> p -> x <> q -> (on_face m k i x <-> on_face m l j x)) ->
  ~ on_face m k i q -> ~ on_face m l j p ->
  exists s, live m s /\ has m s p /\ has m s q /\ forall x, on_face m k i x -> has m s x.

(** The point [p] is replaced by [q]. *)
Definition ren (p q x : Z) : Z := if x =? p then q else x.

(** Two tetrahedra that would get the same four vertices if [p] were replaced by [q]. *)
Definition would_merge (m : mesh) (p q k n : Z) : Prop :=
  live m k /\ live m n /\ k <> n /\ ~ (has m k p /\ has m k q) /\ ~ (has m n p /\ has m n q) /\
  forall x, (exists y, has m k y /\ x = ren p q y) <-> (exists y, has m n y /\ x = ren p q y).
