(** Properties C77 and C78: the interface of the quadrilaterals and the triangles
    of Mmg2d is frozen; the quadrilaterals returned as required. *)
From Coq Require Import ZArith List Lia Bool Permutation.
From Verif Require Import CBase SurfModel Tria2 PropsTria2 Quad2 QuadTria2 PropsQuad2 PropsQuadTria2 QuadPack2 Setadj2 QuadFreeze2.
Import ListNotations.
Open Scope Z_scope.

(** ** Specification *)

(** The mark [u] is [t] frozen: a required one is kept, another one becomes
    required, boundary and "not by the user" (bits 2, 4 and 6). *)
Definition frozen_from (t u : Z) : Prop :=
  if b_req t then u = t
  else forall n, 0 <= n -> Z.testbit u n = Z.testbit t n || ((n =? 2) || (n =? 4) || (n =? 6)).

(** The places [P] are frozen and the other ones kept. *)
Definition froze (P : Z -> Prop) (old new : arr Z) : Prop :=
  alen new = alen old /\ forall c, (P c -> frozen_from (aget old c) (aget new c)) /\ (~ P c -> aget new c = aget old c).

(** Mark of the edge [j] of the triangle [l] and of the side [i] of the
    quadrilateral [k]. *)
Definition t_place (l j : Z) : Z := 3 * (l - 1) + 1 + j.
Definition q_place (k i : Z) : Z := 4 * (k - 1) + 1 + i.

Lemma mark_frozen t : frozen_from t (mark t).
Proof.
  assert (E : tst t G_REQ = Z.testbit t 2) by (change G_REQ with (2 ^ 2); apply tst_bit; lia).
  unfold frozen_from, mark, b_req. rewrite E.
  destruct (Z.testbit t 2); [reflexivity|]. intros n Hn. rewrite Z.lor_spec. f_equal.
  change (G_REQ + G_NOSURF + G_BDY) with (Z.lor (2 ^ 2) (Z.lor (2 ^ 4) (2 ^ 6))). rewrite !Z.lor_spec.
  destruct (Z.eqb_spec n 2) as [->|N2]; [reflexivity|].
  destruct (Z.eqb_spec n 4) as [->|N4]; [reflexivity|].
  destruct (Z.eqb_spec n 6) as [->|N6]; [reflexivity|].
  rewrite !Z.pow2_bits_false by lia. reflexivity.
Qed.

(** ** C77 *)

(** The sides between a quadrilateral and a triangle are frozen on both sides,
    with their vertices; nothing else is changed. *)
Theorem interface_frozen : forall nt ta adja nq a adj tg qt pt,
  meshq nq a -> fits_both nt ta adja nq a adj -> alen adj = 4 * nq + 5 ->
  3 * nt < alen tg -> 4 * nq < alen qt ->
  (forall k i, qside nq a k i -> q_v (aget a k) i < alen pt) ->
  exists tg' qt' pt', freeze_quads nq a adj tg qt pt = Ret (tg', qt', pt') /\
    froze (fun c => exists k i, qside nq a k i /\ qentry adj k i < 0 /\ c = q_place k i) qt qt' /\
    froze (fun c => exists k i l j, qside nq a k i /\ side nt ta l j /\ qentry adj k i = - (3 * l + j) /\ c = t_place l j) tg tg' /\
    froze (fun p => exists k i, qside nq a k i /\ qentry adj k i < 0 /\ In p (qends (aget a k) i)) pt pt'.
Proof.
  intros nt ta adja nq a adj tg qt pt (Q1 & Q2 & Q3) F La Ltg Lqt Hp.
  assert (ID : forall k i, isd nq a adj k i <-> qside nq a k i /\ qentry adj k i < 0).
  { intros k i. unfold isd, qside, qentry, qcell. split.
    - intros (A & B & C & D). repeat split; auto; lia.
    - intros ((A & B & C) & D). pose proof (Q3 k A B 0 ltac:(lia)). repeat split; auto; lia. }
  assert (EN : forall k i, qside nq a k i -> qentry adj k i < 0 ->
     exists l j, side nt ta l j /\ qentry adj k i = - (3 * l + j) /\ gt adj k i = t_place l j).
  { intros k i S N. destruct (fb_sym _ _ _ _ _ _ F k i S) as [Z0|[(l & j & (L1 & _ & L3) & _ & E1 & _)|(l & j & L & _ & E1 & _)]]; [lia|lia|].
    exists l, j. split; [exact L|]. split; [exact E1|]. unfold gt, qcell. fold (qentry adj k i). rewrite E1, Z.opp_involutive.
    destruct L as (L1 & _ & L3). rewrite Z.quot_div_nonneg, Z.rem_mod_nonneg by lia.
    replace (3 * l + j) with (j + l * 3) by lia. rewrite Z.div_add, Z.mod_add, Z.div_small, Z.mod_small by lia.
    unfold cell, t_place. lia. }
  destruct (freeze_quads_ok nq a adj tg qt pt) as ([[tg' qt'] pt'] & E & I1 & I2 & I3).
  - lia.
  - lia.
  - exact Lqt.
  - intros k i D. apply ID in D. destruct D as [S N]. destruct (EN k i S N) as (l & j & (L1 & _ & L3) & _ & ->). unfold t_place. lia.
  - intros k i D. apply ID in D. destruct D as [S N]. pose proof S as (S1 & S2 & S3). unfold ga, gb.
    assert (A : 0 <= qa i < 4) by (unfold qa; destruct (i =? 0), (i =? 1), (i =? 2); lia).
    assert (B : 0 <= qb i < 4) by (unfold qb; destruct (i =? 0), (i =? 1), (i =? 2); lia).
    pose proof (Q3 k S1 S2 _ A). pose proof (Q3 k S1 S2 _ B).
    pose proof (Hp k (qa i) (conj S1 (conj S2 A))). pose proof (Hp k (qb i) (conj S1 (conj S2 B))). lia.
  - exists tg', qt', pt'. split; [exact E|].
    assert (Fr : forall (P Q : Z -> Prop) old new, okm P old new -> (forall c, P c <-> Q c) -> froze Q old new).
    { intros P Q old new [L G] H. split; [exact L|]. intros c. destruct (G c) as (_ & B & C). split.
      - intros X. rewrite B by (apply H; exact X). apply mark_frozen.
      - intros X. apply C. intros Y. apply X, H, Y. }
    assert (U : forall k i, qside nq a k i -> qcell k i < 4 * nq + 1) by (intros k i (? & ? & ?); unfold qcell; lia).
    split; [|split].
    + apply (Fr _ _ _ _ I2). intros c. unfold touch. split.
      * intros (k & i & D & _ & X). apply ID in D. exists k, i. destruct D. auto.
      * intros (k & i & S & N & X). exists k, i. split; [apply ID; auto|]. split; [apply U; exact S | exact X].
    + apply (Fr _ _ _ _ I1). intros c. unfold touch. split.
      * intros (k & i & D & _ & X). apply ID in D. destruct D as [S N]. destruct (EN k i S N) as (l & j & L & E1 & E2).
        exists k, i, l, j. split; [exact S|]. split; [exact L|]. split; [exact E1 | congruence].
      * intros (k & i & l & j & S & L & E1 & X). pose proof L as (L1 & _ & L3). assert (N : qentry adj k i < 0) by lia.
        destruct (EN k i S N) as (l' & j' & (M1 & _ & M3) & E2 & E3). exists k, i. split; [apply ID; auto|]. split; [apply U; exact S|].
        rewrite E3, X. assert (l' = l /\ j' = j) as [-> ->] by lia. reflexivity.
    + apply (Fr _ _ _ _ I3). intros c. unfold touch. split.
      * intros [(k & i & D & _ & X)|(k & i & D & _ & X)]; apply ID in D; destruct D as [S N]; exists k, i;
          (split; [exact S|]); (split; [exact N|]); (rewrite qends_ab by (destruct S as (_ & _ & ?); assumption));
          [left | right; left]; symmetry; exact X.
      * intros (k & i & S & N & X). rewrite qends_ab in X by (destruct S as (_ & _ & ?); assumption).
        destruct X as [X|[X|[]]]; [left | right]; exists k, i; (split; [apply ID; auto|]); (split; [apply U; exact S | symmetry; exact X]).
Qed.
Print Assumptions interface_frozen.

(** The mesh of two quadrilaterals and a triangle: the marks after a run. *)
Example frozen_example :
  match hash2 (2 ^ 31 - 1) 1 1 one_tria with
  | Ret adja => match hashQuad (2 ^ 31 - 1) 0 1 1 2 (fun _ => 1) one_tria adja two_quads with
    | Ret adj => match freeze_quads 2 two_quads adj (acalloc 8 2) (acalloc 13 0) (aof 0 [0; 0; 0; 4; 0; 0; 0]) with
      | Ret (tg, qt, pt) => (map (aget tg) [1; 2; 3], map (aget qt) [1; 2; 3; 4; 5; 6; 7; 8], map (aget pt) [1; 2; 3; 4; 5; 6; 7])
      | Stuck => ([], [], []) end
    | Stuck => ([], [], []) end
  | Stuck => ([], [], []) end
  = ([2; 2; 86], [0; 0; 0; 84; 0; 0; 0; 0], [0; 0; 0; 4; 84; 0; 0]).
Proof. vm_compute. reflexivity. Qed.

(** ** C78 *)

(** What [MMG2D_Get_quadrilateral] answers (API_functions_2d.c:1173-1180), and
    [MMG2D_saveMesh] writes (inout_2d.c:1476-1500). *)
Definition is_required (qt : arr Z) (k : Z) : bool :=
  forallb (fun i => tst (aget qt (4 * (k - 1) + 1 + i)) G_REQ) [0; 1; 2; 3].

Lemma is_required_spec qt k : is_required qt k = true <-> forall i, 0 <= i < 4 -> b_req (aget qt (q_place k i)) = true.
Proof.
  unfold is_required, b_req, q_place. change G_REQ with (2 ^ 2). rewrite forallb_forall. split.
  - intros H i Hi. rewrite <- tst_bit by lia. apply H.
    assert (C : i = 0 \/ i = 1 \/ i = 2 \/ i = 3) by lia. destruct C as [->|[->|[->| ->]]]; cbn; auto.
  - intros H i Hi. rewrite tst_bit by lia. apply H. cbn in Hi. lia.
Qed.

Lemma frozen_req t u : frozen_from t u -> b_req u = true.
Proof.
  unfold frozen_from. destruct (b_req t) eqn:E; [intros ->; exact E|]. intros H. unfold b_req. rewrite H by lia.
  rewrite orb_true_iff. right. reflexivity.
Qed.

(** The quadrilaterals required by the user stay required, and one that was not
    required stays so when one of its sides that were not required is not on a
    triangle. *)
Theorem required_quads_kept : forall nt ta adja nq a adj tg qt pt,
  meshq nq a -> fits_both nt ta adja nq a adj -> alen adj = 4 * nq + 5 ->
  3 * nt < alen tg -> 4 * nq < alen qt ->
  (forall k i, qside nq a k i -> q_v (aget a k) i < alen pt) ->
  exists tg' qt' pt', freeze_quads nq a adj tg qt pt = Ret (tg', qt', pt') /\
    (forall k, 1 <= k <= nq -> is_required qt k = true -> is_required qt' k = true) /\
    (forall k i, qside nq a k i -> 0 <= qentry adj k i -> b_req (aget qt (q_place k i)) = false -> is_required qt' k = false).
Proof.
  intros nt ta adja nq a adj tg qt pt M F La Ltg Lqt Hp.
  destruct (interface_frozen nt ta adja nq a adj tg qt pt M F La Ltg Lqt Hp) as (tg' & qt' & pt' & E & [_ Fq] & _).
  exists tg', qt', pt'. split; [exact E|]. split.
  - intros k Hk R. rewrite is_required_spec in R |- *. intros i Hi. destruct (Fq (q_place k i)) as [A B].
    assert (D : (exists k0 i0, qside nq a k0 i0 /\ qentry adj k0 i0 < 0 /\ q_place k i = q_place k0 i0) \/
               ~ (exists k0 i0, qside nq a k0 i0 /\ qentry adj k0 i0 < 0 /\ q_place k i = q_place k0 i0)).
    { destruct (Z.eq_dec (q_v (aget a k) 0) 0) as [Z0|Nz].
      - right. intros (k0 & i0 & (S1 & S2 & S3) & _ & X). unfold q_place in X. assert (k0 = k) as -> by lia. contradiction.
      - destruct (Z_lt_le_dec (qentry adj k i) 0) as [N|P].
        + left. exists k, i. split; [split; auto|]. auto.
        + right. intros (k0 & i0 & (S1 & S2 & S3) & N & X). unfold q_place in X. assert (k0 = k /\ i0 = i) as [-> ->] by lia. lia. }
    destruct D as [D|D]; [exact (frozen_req _ _ (A D)) | rewrite (B D); apply R; exact Hi].
  - intros k i S P N. destruct (is_required qt' k) eqn:R; [|reflexivity]. exfalso.
    rewrite is_required_spec in R. pose proof S as (S1 & S2 & S3). specialize (R i S3).
    destruct (Fq (q_place k i)) as [_ B]. rewrite B in R; [congruence|].
    intros (k0 & i0 & (T1 & T2 & T3) & N0 & X). unfold q_place in X. assert (k0 = k /\ i0 = i) as [-> ->] by lia. lia.
Qed.
Print Assumptions required_quads_kept.

(** A quadrilateral with a triangle on each side. *)
Definition tri_of (x y z : Z) : tri :=
  mkTri (fun i => if i =? 0 then x else if i =? 1 then y else z) (fun _ => 0) (fun _ => 0) 0.
Definition around : arr tri := aof (tri_of 0 0 0) [tri_of 1 5 2; tri_of 2 6 3; tri_of 3 7 4; tri_of 4 8 1].
Definition the_quad : arr quad := aof (quad_of 0 0 0 0) [quad_of 1 2 3 4].

(** It is returned as required although the user required nothing: the marks
    put on its sides are never taken away ([MMG2D_pack] releases the marks of
    the triangles and of the vertices only, hash_2d.c:557-560, 592-595). *)
Theorem required_quads_refuted :
  exists nt ta nq a adja adj tg' qt' pt',
    mesh2 nt nt ta /\ meshq nq a /\ no_holes nq a /\
    hash2 (2 ^ 31 - 1) nt nt ta = Ret adja /\
    hashQuad (2 ^ 31 - 1) 2 6 nt nq (fun _ => 10) ta adja a = Ret adj /\ fits_both nt ta adja nq a adj /\
    freeze_quads nq a adj (acalloc 17 0) (acalloc 9 0) (acalloc 9 0) = Ret (tg', qt', pt') /\
    is_required (acalloc 9 0) 1 = false /\ is_required qt' 1 = true.
Proof.
  assert (MT : mesh2 4 4 around).
  { split; [lia|]. split; [reflexivity|]. intros k Hk _ i Hi. assert (D : k = 1 \/ k = 2 \/ k = 3 \/ k = 4) by lia.
    assert (C : i = 0 \/ i = 1 \/ i = 2) by lia.
    destruct D as [->|[->|[->| ->]]], C as [->|[->| ->]]; vm_compute; reflexivity. }
  assert (M : meshq 1 the_quad).
  { split; [lia|]. split; [reflexivity|]. intros k Hk _ i Hi. assert (k = 1) as -> by lia.
    assert (C : i = 0 \/ i = 1 \/ i = 2 \/ i = 3) by lia. destruct C as [->|[->|[->| ->]]]; vm_compute; reflexivity. }
  assert (NH : no_holes 1 the_quad) by (intros k Hk; assert (k = 1) as -> by lia; vm_compute; discriminate).
  destruct (hash_quads_triangles (2 ^ 31 - 1) 2 6 4 4 1 (fun _ => 10) around the_quad MT M NH
     ltac:(lia) ltac:(lia) ltac:(lia) ltac:(intros; lia)) as (adja & adj & E1 & E2 & _ & H).
  assert (T : (match hash2 (2 ^ 31 - 1) 4 4 around with
     | Ret x => match hashQuad (2 ^ 31 - 1) 2 6 4 1 (fun _ => 10) around x the_quad with
       | Ret y => match freeze_quads 1 the_quad y (acalloc 17 0) (acalloc 9 0) (acalloc 9 0) with
         | Ret (_, qt, _) => is_required qt 1
         | Stuck => false end
       | Stuck => false end
     | Stuck => false end) = true) by (vm_compute; reflexivity).
  rewrite E1, E2 in T.
  destruct (freeze_quads 1 the_quad adj (acalloc 17 0) (acalloc 9 0) (acalloc 9 0)) as [[[tg' qt'] pt']|] eqn:E3; [|discriminate].
  exists 4, around, 1, the_quad, adja, adj, tg', qt', pt'.
  split; [exact MT|]. split; [exact M|]. split; [exact NH|]. split; [exact E1|]. split; [exact E2|]. split; [exact H|].
  split; [exact E3|]. split; [reflexivity | exact T].
Qed.
Print Assumptions required_quads_refuted.
