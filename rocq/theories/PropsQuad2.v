(** Property C74: the adjacencies between the quadrilaterals of Mmg2d. *)
From Coq Require Import ZArith List Lia Bool Permutation.
From Verif Require Import CBase SurfModel Quad2 Quad2Hash.
Import ListNotations.
Open Scope Z_scope.

(** ** Specification *)

(** The four sides of a quadrilateral, in the numbering of the library
    (libmmg2d_private.h:72-73). *)
Definition qends (q : quad) (i : Z) : list Z :=
  map (q_v q) (nth (Z.to_nat i) [[0; 1]; [0; 3]; [1; 2]; [2; 3]] []).

Definition qcoincide (t : quad) (i : Z) (u : quad) (j : Z) : Prop := Permutation (qends t i) (qends u j).

(** What the adjacency table says of the side [i] of the quadrilateral [k]. *)
Definition qentry (adj : arr Z) (k i : Z) : Z := aget adj (4 * (k - 1) + 1 + i).

(** [nq] positions, in an array of [nq+1] cells; the quadrilaterals have
    positive vertices, a hole has first vertex 0. *)
Definition meshq (nq : Z) (a : arr quad) : Prop :=
  0 <= nq /\ alen a = nq + 1 /\
  forall k, 1 <= k <= nq -> q_v (aget a k) 0 <> 0 -> forall i, 0 <= i < 4 -> 0 < q_v (aget a k) i.

Definition no_holes (nq : Z) (a : arr quad) : Prop := forall k, 1 <= k <= nq -> q_v (aget a k) 0 <> 0.

Definition qside (nq : Z) (a : arr quad) (k i : Z) : Prop := 1 <= k <= nq /\ q_v (aget a k) 0 <> 0 /\ 0 <= i < 4.

Record fitsq (nq : Z) (a : arr quad) (adj : arr Z) : Prop := {
  (* an entry is nil or designates another side of the mesh, which points back
     and has the same vertices *)
  fq_sym : forall k i, qside nq a k i -> qentry adj k i = 0 \/
     exists l j, qside nq a l j /\ (l, j) <> (k, i) /\ qentry adj k i = 4 * l + j /\ qentry adj l j = 4 * k + i /\
       qcoincide (aget a k) i (aget a l) j;
  (* two coinciding sides are not both left without neighbour *)
  fq_max : forall k i l j, qside nq a k i -> qside nq a l j -> (l, j) <> (k, i) ->
     qcoincide (aget a k) i (aget a l) j -> qentry adj k i = 0 -> qentry adj l j <> 0
}.

(** No side belongs to three quadrilaterals. *)
Definition qconforming (nq : Z) (a : arr quad) : Prop :=
  forall k i l j m n, qside nq a k i -> qside nq a l j -> qside nq a m n ->
     qcoincide (aget a k) i (aget a l) j -> qcoincide (aget a k) i (aget a m) n ->
     (l, j) = (k, i) \/ (m, n) = (k, i) \/ (l, j) = (m, n).

(** ** Lemmas *)

Lemma qperm2 (a b x y : Z) : Permutation [a; b] [x; y] <-> (a = x /\ b = y) \/ (a = y /\ b = x).
Proof.
  split.
  - intros H. pose proof (Permutation_in a H (or_introl eq_refl)) as Ha. destruct Ha as [<-|[<-|[]]].
    + apply Permutation_cons_inv in H. apply Permutation_length_1 in H. auto.
    + pose proof (Permutation_trans H (perm_swap _ _ _)) as H2. apply Permutation_cons_inv in H2.
      apply Permutation_length_1 in H2. auto.
  - intros [[-> ->]|[-> ->]]; [apply Permutation_refl | apply perm_swap].
Qed.

Lemma qends_ab t i : 0 <= i < 4 -> qends t i = [q_v t (qa i); q_v t (qb i)].
Proof.
  intros Hi. assert (C : i = 0 \/ i = 1 \/ i = 2 \/ i = 3) by lia. destruct C as [->|[->|[->| ->]]]; reflexivity.
Qed.

Lemma qcoincide_ends t i u j : 0 <= i < 4 -> 0 <= j < 4 ->
  (qcoincide t i u j <-> (qmin t i, qmax t i) = (qmin u j, qmax u j)).
Proof.
  intros Hi Hj. unfold qcoincide. rewrite (qends_ab t i Hi), (qends_ab u j Hj), qperm2, pair_equal_spec.
  unfold qmin, qmax. lia.
Qed.

Lemma qfel_enc k i : 0 <= i < 4 -> fel (4 * (k - 1) + 1 + i) = k /\ floc (4 * (k - 1) + 1 + i) = i.
Proof.
  intros Hi. unfold fel, floc. replace (4 * (k - 1) + 1 + i - 1) with (i + (k - 1) * 4) by lia. split.
  - rewrite Z.div_add by lia. rewrite Z.div_small by lia. lia.
  - rewrite Z.mod_add by lia. apply Z.mod_small. lia.
Qed.

Lemma qfel_dec f : 4 * (fel f - 1) + 1 + floc f = f.
Proof. unfold fel, floc. pose proof (Z.div_mod (f - 1) 4). lia. Qed.

(** ** C74 *)

(** When every position holds a quadrilateral the table fits the mesh. *)
Theorem hash_quads_fits : forall inival nq a,
  meshq nq a -> no_holes nq a -> 4 * nq < inival ->
  exists adj, hashq inival nq a = Ret adj /\ alen adj = 4 * nq + 5 /\ fitsq nq a adj.
Proof.
  intros inival nq a (Hnt & Hlen & Hv) Hfull Hini.
  destruct (hashq_ok inival nq a Hnt Hlen Hini Hfull Hv) as (adj & E & J).
  exists adj. split; [exact E|]. split; [exact (j_len _ _ _ _ _ J)|].
  assert (Q : forall k i l j, qside nq a k i -> qside nq a l j ->
    (qcoincide (aget a k) i (aget a l) j <-> fid a (4 * (k - 1) + 1 + i) = fid a (4 * (l - 1) + 1 + j))).
  { intros k i l j (A1 & A2 & A3) (B1 & B2 & B3). destruct (qfel_enc k i A3) as [E1 E2]. destruct (qfel_enc l j B3) as [E3 E4].
    rewrite !fid_live by (unfold live; rewrite ?E1, ?E3; assumption). rewrite E1, E2, E3, E4. apply qcoincide_ends; assumption. }
  constructor.
  - intros k i S. pose proof S as (A1 & A2 & A3). unfold qentry. set (f := 4 * (k - 1) + 1 + i).
    assert (Hf : 1 <= f <= 4 * nq) by (unfold f; lia).
    destruct (Z.eq_dec (aget adj f) 0) as [Z0|Nz]; [left; exact Z0 | right].
    pose proof (j_done _ _ _ _ _ J f ltac:(lia)).
    destruct (j_sym _ _ _ _ _ J f Hf ltac:(lia)) as (g & G1 & G2 & G3 & G4 & G5).
    destruct (fel_range nq g G1) as [R1 R2]. pose proof (qfel_dec g) as D.
    assert (Sg : qside nq a (fel g) (floc g)) by (split; [exact R1 | split; [apply Hfull; exact R1 | exact R2]]).
    exists (fel g), (floc g). split; [exact Sg|].
    split; [intros Eq; apply pair_equal_spec in Eq; destruct Eq as [Q1 Q2]; rewrite Q1, Q2 in D; unfold f in G2; congruence|].
    rewrite D. split; [lia|]. split; [unfold f in G4 |- *; lia|].
    apply (Q _ _ _ _ S Sg). rewrite D. fold f. congruence.
  - intros k i l j S1 S2 Nq C Z0. unfold qentry in *. apply (Q _ _ _ _ S1 S2) in C.
    destruct S1 as (A1 & A2 & A3). destruct S2 as (B1 & B2 & B3).
    assert (N : 4 * (k - 1) + 1 + i <> 4 * (l - 1) + 1 + j) by (intros X; apply Nq; rewrite pair_equal_spec; lia).
    pose proof (j_free _ _ _ _ _ J (4 * (k - 1) + 1 + i) (4 * (l - 1) + 1 + j) ltac:(lia) ltac:(lia) N C Z0). lia.
Qed.
Print Assumptions hash_quads_fits.

(** In a conforming mesh without holes the neighbour of a side is the other
    side with the same vertices. *)
Theorem hash_quads_neighbours : forall inival nq a,
  meshq nq a -> no_holes nq a -> 4 * nq < inival -> qconforming nq a ->
  exists adj, hashq inival nq a = Ret adj /\
   forall k i l j, qside nq a k i -> qside nq a l j -> (l, j) <> (k, i) ->
     (qentry adj k i = 4 * l + j <-> qcoincide (aget a k) i (aget a l) j).
Proof.
  intros inival nq a M Hf Hini Hman.
  destruct (hash_quads_fits inival nq a M Hf Hini) as (adj & E & _ & F).
  exists adj. split; [exact E|]. intros k i l j S1 S2 Nq. split.
  - intros He. destruct (fq_sym _ _ _ F k i S1) as [Z0|(l' & j' & S3 & _ & L4 & _ & L6)].
    + destruct S2 as (? & ? & ?). lia.
    + assert (l' = l /\ j' = j) as [-> ->]; [|exact L6]. destruct S2 as (? & ? & ?), S3 as (? & ? & ?). lia.
  - intros C. destruct (fq_sym _ _ _ F k i S1) as [Z0|(l' & j' & S3 & L3 & L4 & _ & L6)].
    + pose proof (fq_max _ _ _ F k i l j S1 S2 Nq C Z0) as Nz.
      destruct (fq_sym _ _ _ F l j S2) as [Z1|(m & n & S4 & M3 & M4 & M5 & M6)]; [congruence|].
      destruct (Hman l j k i m n S2 S1 S4 (Permutation_sym C) M6) as [Q|[Q|Q]]; [congruence|congruence|].
      apply pair_equal_spec in Q. destruct Q as [-> ->]. destruct S2 as (? & ? & ?). lia.
    + destruct (Hman k i l j l' j' S1 S2 S3 C L6) as [Q|[Q|Q]]; congruence.
Qed.
Print Assumptions hash_quads_neighbours.

Definition quad_of (a b c d : Z) : quad :=
  mkQd (fun i => if i =? 0 then a else if i =? 1 then b else if i =? 2 then c else d).

(** Two quadrilaterals with the side 2-5 in common. *)
Definition two_quads : arr quad := aof (quad_of 0 0 0 0) [quad_of 1 2 5 4; quad_of 2 3 6 5].

Lemma two_quads_mesh : meshq 2 two_quads /\ no_holes 2 two_quads.
Proof.
  split.
  - split; [lia|]. split; [reflexivity|]. intros k Hk _ i Hi.
    assert (C : k = 1 \/ k = 2) by lia. assert (D : i = 0 \/ i = 1 \/ i = 2 \/ i = 3) by lia.
    destruct C as [->| ->], D as [->|[->|[->| ->]]]; vm_compute; reflexivity.
  - intros k Hk. assert (C : k = 1 \/ k = 2) by lia. destruct C as [->| ->]; vm_compute; discriminate.
Qed.

(** The theorem applies, and the side 2 of the first and the side 1 of the
    second are neighbours. *)
Example two_quads_neighbours :
  exists adj, hashq (2 ^ 31 - 1) 2 two_quads = Ret adj /\ fitsq 2 two_quads adj /\
  map (fun n => aget adj n) [1; 2; 3; 4; 5; 6; 7; 8] = [0; 0; 9; 0; 0; 6; 0; 0].
Proof.
  destruct two_quads_mesh as [M F].
  destruct (hash_quads_fits (2 ^ 31 - 1) 2 two_quads M F ltac:(lia)) as (adj & E & _ & H).
  exists adj. split; [exact E|]. split; [exact H|].
  assert (T : (match hashq (2 ^ 31 - 1) 2 two_quads with
               | Ret x => Some (map (fun n => aget x n) [1; 2; 3; 4; 5; 6; 7; 8]) | Stuck => None end)
            = Some [0; 0; 9; 0; 0; 6; 0; 0]) by (vm_compute; reflexivity).
  rewrite E in T. congruence.
Qed.

(** The same two after a position that was never set. *)
Definition hole_then_two : arr quad :=
  aof (quad_of 0 0 0 0) [quad_of 0 0 0 0; quad_of 1 2 5 4; quad_of 2 3 6 5].

(** With a hole the table is wrong: the numbers given to the sides count the
    quadrilaterals, but they are read as if they counted the positions. *)
Theorem hash_quads_refuted :
  exists nq a adj k i l j,
    meshq nq a /\ hashq (2 ^ 31 - 1) nq a = Ret adj /\
    qside nq a k i /\ qside nq a l j /\ (l, j) <> (k, i) /\ qcoincide (aget a k) i (aget a l) j /\
    (forall m n, qside nq a m n -> qcoincide (aget a k) i (aget a m) n -> (m, n) = (k, i) \/ (m, n) = (l, j)) /\
    qentry adj k i = 0 /\ qentry adj l j = 0.
Proof.
  assert (T : (match hashq (2 ^ 31 - 1) 3 hole_then_two with
               | Ret x => (aget x 7 =? 0) && (aget x 10 =? 0) | Stuck => false end) = true) by (vm_compute; reflexivity).
  destruct (hashq (2 ^ 31 - 1) 3 hole_then_two) as [adj|] eqn:E; [|discriminate].
  apply andb_prop in T. destruct T as [T1 T2]. apply Z.eqb_eq in T1, T2.
  exists 3, hole_then_two, adj, 2, 2, 3, 1.
  split.
  { split; [lia|]. split; [reflexivity|]. intros k Hk Nz i Hi.
    assert (C : k = 1 \/ k = 2 \/ k = 3) by lia. assert (D : i = 0 \/ i = 1 \/ i = 2 \/ i = 3) by lia.
    destruct C as [->|[->| ->]]; [exfalso; apply Nz; reflexivity| |];
      destruct D as [->|[->|[->| ->]]]; vm_compute; reflexivity. }
  split; [exact E|].
  split; [split; [lia | split; [vm_compute; discriminate | lia]]|].
  split; [split; [lia | split; [vm_compute; discriminate | lia]]|].
  split; [congruence|].
  split; [apply qcoincide_ends; [lia | lia | reflexivity]|].
  split.
  { intros m n (A1 & A2 & A3) C. apply qcoincide_ends in C; [|lia|lia].
    assert (B : m = 1 \/ m = 2 \/ m = 3) by lia. assert (D : n = 0 \/ n = 1 \/ n = 2 \/ n = 3) by lia.
    destruct B as [->|[->| ->]]; [exfalso; apply A2; reflexivity| |];
      destruct D as [->|[->|[->| ->]]]; first [left; reflexivity | right; reflexivity | vm_compute in C; discriminate C]. }
  split; [exact T1 | exact T2].
Qed.
Print Assumptions hash_quads_refuted.
