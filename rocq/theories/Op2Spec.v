(** What a conforming triangular mesh is, stated on the arrays of the C code. *)
From Coq Require Import ZArith List Lia Bool.
From Verif Require Import CBase Op2Model.
Import ListNotations.
Open Scope Z_scope.

(** Local numbers. *)
Definition loc (i : Z) : Prop := i = 0 \/ i = 1 \/ i = 2.

(** Triangle [k] is in the table and in use. *)
Definition live (m : mesh) (k : Z) : Prop :=
  1 <= k < alen (m_tri m) /\ 0 < tv (aget (m_tri m) k) 0.

(** Vertex, edge tag, edge reference and neighbour. *)
Definition vtx (m : mesh) (k i : Z) : Z := tv (aget (m_tri m) k) i.
Definition tag (m : mesh) (k i : Z) : Z := ttag (aget (m_tri m) k) i.
Definition edg (m : mesh) (k i : Z) : Z := tedg (aget (m_tri m) k) i.
Definition nb (m : mesh) (k i : Z) : Z := aget (m_adj m) (3 * (k - 1) + 1 + i).

(** Edge [i] of triangle [k], in the direction in which the triangle runs along it. *)
Definition ends (m : mesh) (k i : Z) : Z * Z := (vtx m k ((i + 1) mod 3), vtx m k ((i + 2) mod 3)).
Definition swp (e : Z * Z) : Z * Z := (snd e, fst e).

(** No oriented edge belongs to two triangles: two triangles with a common edge
    run along it in opposite directions, and at most two triangles share an edge. *)
Definition oriented (m : mesh) : Prop :=
  forall k i l j, live m k -> live m l -> loc i -> loc j -> ends m k i = ends m l j -> k = l /\ i = j.

(** The adjacency table says exactly which triangles share an edge. *)
Definition adjacent (m : mesh) : Prop :=
  forall k i, live m k -> loc i ->
  (nb m k i = 0 /\ forall l j, live m l -> loc j -> ends m l j <> swp (ends m k i)) \/
  (exists l j, live m l /\ loc j /\ nb m k i = 3 * l + j /\ ends m l j = swp (ends m k i)).

(** The three vertices of a triangle are different points in use. *)
Definition alive (m : mesh) (p : Z) : Prop := 1 <= p < alen (m_ptag m) /\ 0 <= aget (m_ptag m) p < MG_NUL.
Definition vertices_ok (m : mesh) : Prop :=
  forall k, live m k ->
  alive m (vtx m k 0) /\ alive m (vtx m k 1) /\ alive m (vtx m k 2) /\
  vtx m k 0 <> vtx m k 1 /\ vtx m k 1 <> vtx m k 2 /\ vtx m k 2 <> vtx m k 0.

(** The free list: triangles that are not in use, each of them once. *)
Inductive chain (m : mesh) : Z -> list Z -> Prop :=
| chain_nil : chain m 0 []
| chain_cons : forall k l, 1 <= k < m_ntmax m -> ~ live m k -> ~ In k l ->
    chain m (vtx m k 2) l -> chain m k (k :: l).

(** The tables.  The last triangle of the table is never used: the C code chains
    the free triangles up to [mesh->ntmax-1] only. *)
Definition tables_ok (m : mesh) : Prop :=
  alen (m_tri m) = m_ntmax m + 1 /\ alen (m_adj m) = 3 * m_ntmax m + 5 /\
  0 <= m_nt m < m_ntmax m /\ vtx m (m_ntmax m) 2 = 0 /\
  (forall k, live m k -> k <= m_nt m) /\
  (exists l, chain m (m_nil m) l) /\
  (forall g b, In (g, b) (m_gaps m) -> 1 <= g).

Definition conforming (m : mesh) : Prop :=
  tables_ok m /\ vertices_ok m /\ oriented m /\ adjacent m.

(** The table is symmetric. *)
Definition symmetric (m : mesh) : Prop :=
  forall k i, live m k -> loc i -> nb m k i <> 0 ->
  live m (nb m k i / 3) /\ nb m (nb m k i / 3) (nb m k i mod 3) = 3 * k + i.

(** Both triangles agree on the tag and on the reference of their common edge. *)
Definition tags_agree (m : mesh) : Prop :=
  forall k i, live m k -> loc i -> nb m k i <> 0 ->
  tag m (nb m k i / 3) (nb m k i mod 3) = tag m k i /\ edg m (nb m k i / 3) (nb m k i mod 3) = edg m k i.

(** Triangle [t] is the oriented triangle [x], [y], [z]. *)
Definition is_tri (m : mesh) (t x y z : Z) : Prop :=
  exists u, loc u /\ vtx m t u = x /\ vtx m t ((u + 1) mod 3) = y /\ vtx m t ((u + 2) mod 3) = z.

(** No triangle has the edge between [p] and [q]. *)
Definition not_an_edge (m : mesh) (p q : Z) : Prop :=
  forall x y, live m x -> loc y -> ends m x y <> (p, q) /\ ends m x y <> (q, p).

(** No triangle has the vertex [p]. *)
Definition unused (m : mesh) (p : Z) : Prop := forall x y, live m x -> loc y -> vtx m x y <> p.

(** Two triangles or more wait in the free list. *)
Definition two_free (m : mesh) : Prop := exists x y l, chain m (m_nil m) (x :: y :: l).

(** Nothing changes for triangle [x]. *)
Definition same_tri (m m' : mesh) (x : Z) : Prop := forall y, loc y -> vtx m' x y = vtx m x y.
