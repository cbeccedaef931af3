(** Property C04: the adjacency table is symmetric and geometric. *)
From Coq Require Import ZArith List Lia Permutation.
From Verif Require Import CBase MeshModel HashModel HashSpec HashCorrect AdjaModel AdjaProofs.
Import ListNotations.
Open Scope Z_scope.

(** ** Specification *)

(** Vertices of the face opposite to vertex [i]: all vertices but the [i]th. *)
Definition face (t : tetra) (i : Z) : list Z :=
  map (tv t) (filter (fun j => negb (j =? i)) [0; 1; 2; 3]).

(** Two faces coincide when they have the same vertices. *)
Definition coincide (t : tetra) (i : Z) (u : tetra) (j : Z) : Prop := Permutation (face t i) (face u j).

(** What the table says of face [i] of element [k]. *)
Definition entry (adj : arr Z) (k i : Z) : Z := aget adj (4 * (k - 1) + 1 + i).

(** A packed mesh of [ne] elements: they are all valid, with positive vertex indices. *)
Definition packed (ne nemax : Z) (tet : arr tetra) : Prop :=
  0 <= ne <= nemax /\ alen tet = nemax + 1 /\
  forall k, 1 <= k <= ne -> forall i, 0 <= i < 4 -> 0 < tv (aget tet k) i.

(** An adjacency table that fits the mesh. *)
Record adj_fits (ne : Z) (tet : arr tetra) (adj : arr Z) : Prop := {
  (* an entry is nil or designates another face of the mesh, which points back
     and has the same vertices *)
  fit_sym : forall k i, 1 <= k <= ne -> 0 <= i < 4 ->
     entry adj k i = 0 \/
     exists l j, 1 <= l <= ne /\ 0 <= j < 4 /\ (l, j) <> (k, i) /\
       entry adj k i = 4 * l + j /\ entry adj l j = 4 * k + i /\
       coincide (aget tet k) i (aget tet l) j;
  (* two coinciding faces are not both left without neighbour *)
  fit_max : forall k i l j, 1 <= k <= ne -> 0 <= i < 4 -> 1 <= l <= ne -> 0 <= j < 4 ->
     (l, j) <> (k, i) -> coincide (aget tet k) i (aget tet l) j ->
     entry adj k i = 0 -> entry adj l j <> 0;
  (* nothing is said about absent elements *)
  fit_out : forall k i, ne < k -> 0 <= i < 4 -> entry adj k i = 0
}.

(** ** Proofs *)

Lemma coincide_fid tet f g :
  0 <= floc f < 4 -> 0 <= floc g < 4 ->
  (coincide (aget tet (fel f)) (floc f) (aget tet (fel g)) (floc g) <-> fid tet f = fid tet g).
Proof.
  intros Hf Hg.
  assert (P : forall t i, 0 <= i < 4 -> Permutation (face t i) [fa t i; fb t i; fc t i]).
  { intros t i Hi. assert (i = 0 \/ i = 1 \/ i = 2 \/ i = 3) as C by lia.
    destruct C as [->|[->|[->| ->]]]; cbv - [v0 v1 v2 v3].
    - apply Permutation_refl.
    - apply perm_skip, perm_swap.
    - apply Permutation_refl.
    - apply perm_skip, perm_swap. }
  assert (Q : forall a b c x y z, Permutation [a; b; c] [x; y; z] <-> perm3 a b c x y z).
  { intros a b c x y z. unfold perm3. split.
    - intros H. pose proof (Permutation_in a H (or_introl eq_refl)) as Ha.
      destruct Ha as [<-|[<-|[<-|[]]]].
      + apply Permutation_cons_inv in H. pose proof (Permutation_in b H (or_introl eq_refl)) as Hb.
        destruct Hb as [<-|[<-|[]]].
        * apply Permutation_cons_inv in H. apply Permutation_length_1 in H. subst. tauto.
        * pose proof (Permutation_trans H (perm_swap _ _ _)) as H2. apply Permutation_cons_inv in H2.
          apply Permutation_length_1 in H2. subst. tauto.
      + pose proof (Permutation_trans H (perm_swap _ _ _)) as H2. apply Permutation_cons_inv in H2.
        pose proof (Permutation_in b H2 (or_introl eq_refl)) as Hb. destruct Hb as [<-|[<-|[]]].
        * apply Permutation_cons_inv in H2. apply Permutation_length_1 in H2. subst. tauto.
        * pose proof (Permutation_trans H2 (perm_swap _ _ _)) as H3. apply Permutation_cons_inv in H3.
          apply Permutation_length_1 in H3. subst. tauto.
      + assert (H2 : Permutation [b; c] [x; y]).
        { apply Permutation_cons_inv with (a := z). etransitivity; [exact H|].
          change [x; y; z] with ([x; y] ++ [z]). apply Permutation_sym, Permutation_cons_append. }
        pose proof (Permutation_in b H2 (or_introl eq_refl)) as Hb. destruct Hb as [<-|[<-|[]]].
        * apply Permutation_cons_inv in H2. apply Permutation_length_1 in H2. subst. tauto.
        * pose proof (Permutation_trans H2 (perm_swap _ _ _)) as H3. apply Permutation_cons_inv in H3.
          apply Permutation_length_1 in H3. subst. tauto.
    - intros H. 
      destruct H as [H|[H|[H|[H|[H|H]]]]]; destruct H as [-> [-> ->]];
        repeat first [ apply Permutation_refl | apply perm_skip
        | apply perm_swap
        | (etransitivity; [apply perm_swap |]; apply perm_skip; solve [apply perm_swap | apply Permutation_refl])
        | (etransitivity; [apply perm_skip, perm_swap |]; apply perm_swap)
        | (etransitivity; [apply perm_swap |]; etransitivity; [apply perm_skip, perm_swap |]; apply perm_swap) ]. }
  unfold coincide. rewrite (P _ _ Hf), (P _ _ Hg), Q, <- same_face_perm, same_face_key.
  unfold fid, fkey, fmin, fmax, fsum. rewrite !pair_equal_spec. intuition congruence.
Qed.

Lemma fel_enc k i : 0 <= i < 4 -> fel (4 * (k - 1) + 1 + i) = k /\ floc (4 * (k - 1) + 1 + i) = i.
Proof.
  intros Hi. unfold fel, floc. split.
  - symmetry. replace (4 * (k - 1) + 1 + i - 1) with (i + (k - 1) * 4) by lia.
    rewrite Z.div_add by lia. rewrite Z.div_small by lia. lia.
  - replace (4 * (k - 1) + 1 + i - 1) with (i + (k - 1) * 4) by lia.
    rewrite Z.mod_add by lia. apply Z.mod_small. lia.
Qed.

Lemma fel_dec f : 4 * (fel f - 1) + 1 + floc f = f.
Proof. unfold fel, floc. pose proof (Z.div_mod (f - 1) 4). lia. Qed.

(** C04. Building the adjacency of any packed mesh succeeds, without undefined
    behaviour, and yields a table that fits the mesh.  [inival] is the largest
    [MMG5_int]: face numbers must stay below it. *)
Theorem C04_adjacency : forall inival ne nemax tet,
  packed ne nemax tet -> 4 * ne < inival ->
  exists adj, hashTetra inival ne nemax tet = Ret adj /\ alen adj = 4 * nemax + 5 /\ adj_fits ne tet adj.
Proof.
  intros inival ne nemax tet [Hne [Hlen Hp]] Hini.
  assert (Hv : forall k, 1 <= k <= ne -> 0 < v0 (aget tet k) /\ 0 < v1 (aget tet k) /\ 0 < v2 (aget tet k) /\ 0 < v3 (aget tet k)).
  { intros k Hk. pose proof (Hp k Hk 0). pose proof (Hp k Hk 1). pose proof (Hp k Hk 2). pose proof (Hp k Hk 3).
    unfold tv in *. cbn in *. repeat split; [apply H|apply H0|apply H1|apply H2]; lia. }
  destruct (hashTetra_ok inival ne nemax tet Hne Hlen Hini Hv) as [adj [E J]].
  exists adj. split; [exact E|]. split; [exact (j_len _ _ _ _ _ _ J)|]. constructor.
  - intros k i Hk Hi. unfold entry. set (f := 4 * (k - 1) + 1 + i).
    destruct (fel_enc k i Hi) as [Ef Ei]. fold f in Ef, Ei.
    assert (Hf : 1 <= f <= 4 * ne) by (unfold f; lia).
    destruct (Z.eq_dec (aget adj f) 0) as [Z0|Nz]; [left; exact Z0 | right].
    pose proof (j_done _ _ _ _ _ _ J f ltac:(lia)).
    destruct (j_sym _ _ _ _ _ _ J f Hf ltac:(lia)) as [g [G1 [G2 [G3 [G4 G5]]]]].
    destruct (fel_range ne g G1) as [R1 R2]. pose proof (fel_dec g) as D.
    exists (fel g), (floc g). split; [exact R1|]. split; [exact R2|].
    assert (Rf : 0 <= floc f < 4) by lia.
    split; [intros Eq; inversion Eq; unfold f in G2; congruence|]. rewrite D.
    split; [lia|]. split; [unfold f in G4 |- *; lia|].
    rewrite <- Ef, <- Ei at 1. rewrite (coincide_fid tet f g Rf R2). congruence.
  - intros k i l j Hk Hi Hl Hj Nq C Z0. unfold entry in *.
    destruct (fel_enc k i Hi) as [Ef Ei]. destruct (fel_enc l j Hj) as [Eg Ej].
    assert (Nfg : 4 * (k - 1) + 1 + i <> 4 * (l - 1) + 1 + j).
    { intros Q. apply Nq. rewrite pair_equal_spec. lia. }
    set (f := 4 * (k - 1) + 1 + i) in *. set (g := 4 * (l - 1) + 1 + j) in *.
    assert (Hf : 1 <= f <= 4 * ne) by (unfold f; lia). assert (Hg : 1 <= g <= 4 * ne) by (unfold g; lia).
    rewrite <- Ef, <- Ei, <- Eg, <- Ej in C. rewrite coincide_fid in C by lia.
    pose proof (j_free _ _ _ _ _ _ J f g Hf Hg Nfg C Z0). lia.
  - intros k i Hk Hi. unfold entry. apply (j_out _ _ _ _ _ _ J). lia.
Qed.
Print Assumptions C04_adjacency.

(** When no face belongs to three elements, the neighbour of a face is exactly
    the other face with the same vertices. *)
Theorem C04_adjacency_manifold : forall inival ne nemax tet,
  packed ne nemax tet -> 4 * ne < inival ->
  (forall k i l j m n, 1 <= k <= ne -> 0 <= i < 4 -> 1 <= l <= ne -> 0 <= j < 4 -> 1 <= m <= ne -> 0 <= n < 4 ->
     coincide (aget tet k) i (aget tet l) j -> coincide (aget tet k) i (aget tet m) n ->
     (l, j) = (k, i) \/ (m, n) = (k, i) \/ (l, j) = (m, n)) ->
  exists adj, hashTetra inival ne nemax tet = Ret adj /\
   forall k i l j, 1 <= k <= ne -> 0 <= i < 4 -> 1 <= l <= ne -> 0 <= j < 4 -> (l, j) <> (k, i) ->
     (entry adj k i = 4 * l + j <-> coincide (aget tet k) i (aget tet l) j).
Proof.
  intros inival ne nemax tet Hp Hini Hman.
  destruct (C04_adjacency inival ne nemax tet Hp Hini) as [adj [E [_ F]]].
  exists adj. split; [exact E|]. intros k i l j Hk Hi Hl Hj Nq. split.
  - intros He. destruct (fit_sym _ _ _ F k i Hk Hi) as [Z0|[l' [j' [L1 [L2 [_ [L4 [_ L6]]]]]]]]; [lia|].
    assert (l' = l /\ j' = j) as [-> ->] by lia. exact L6.
  - intros C. destruct (fit_sym _ _ _ F k i Hk Hi) as [Z0|[l' [j' [L1 [L2 [L3 [L4 [_ L6]]]]]]]].
    + pose proof (fit_max _ _ _ F k i l j Hk Hi Hl Hj Nq C Z0) as Nz.
      destruct (fit_sym _ _ _ F l j Hl Hj) as [Z1|[m [n [M1 [M2 [M3 [M4 [M5 M6]]]]]]]]; [congruence|].
      destruct (Hman l j k i m n Hl Hj Hk Hi M1 M2 (Permutation_sym C) M6) as [Q|[Q|Q]]; congruence.
    + destruct (Hman k i l j l' j' Hk Hi Hl Hj L1 L2 C L6) as [Q|[Q|Q]]; congruence.
Qed.
Print Assumptions C04_adjacency_manifold.

(** Non-trivial instance: three tetrahedra around an edge and a fourth one apart. *)
Definition tets4 : arr tetra :=
  mkArr 7 (aget (aof tetra0 [mkT 1 2 3 4 0 0 0 0; mkT 1 2 4 5 0 0 0 0; mkT 2 1 3 5 0 0 0 0; mkT 7 8 9 3 0 0 0 0])).
Example C04_case_hyps : packed 4 6 tets4.
Proof.
  split; [lia|]. split; [reflexivity|]. intros k Hk i Hi.
  assert (k = 1 \/ k = 2 \/ k = 3 \/ k = 4) as C by lia. assert (i = 0 \/ i = 1 \/ i = 2 \/ i = 3) as D by lia.
  destruct C as [->|[->|[->| ->]]], D as [->|[->|[->| ->]]]; reflexivity.
Qed.
Example C04_case :
  match hashTetra 1000 4 6 tets4 with
  | Ret adj => map (fun f => aget adj (Z.of_nat f)) (seq 1 16) = [0;0;11;15; 0;0;14;6; 0;0;10;7; 0;0;0;0]
  | Stuck => False end.
Proof. vm_compute. reflexivity. Qed.
