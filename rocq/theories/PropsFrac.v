(** C18: the parts of an element on each side of the level-set. *)
From Coq Require Import ZArith QArith Qabs Qfield Lqa List Bool Lia.
From Verif Require Import CBase OctModel PropsOct2 SplitModel FracModel.
Import ListNotations.
Open Scope Q_scope.

(** Six times the volume of the tetrahedron; the area of the triangle. *)
Definition vol6 (p : nat -> v3) : Q := Qabs (det4pt (p 0%nat) (p 1%nat) (p 2%nat) (p 3%nat)).

(** Values as [MMG3D_snpval_ls] leaves them: zero or not small. *)
Definition snapped (v : nat -> Q) (n : nat) : Prop := forall i, (i < n)%nat -> v i == 0 \/ eps <= Qabs (v i).

(** The part of the volume where the affine function of vertex values [v] is positive:
    divided difference of the truncated cubic (square in dimension 2) at the values. *)
Definition pos (x : Q) : Q := if Qltb 0 x then x else 0.
Definition positive3 (v : nat -> Q) : Q :=
  pos (v 0%nat) * pos (v 0%nat) * pos (v 0%nat) / ((v 0%nat - v 1%nat) * (v 0%nat - v 2%nat) * (v 0%nat - v 3%nat)) +
  pos (v 1%nat) * pos (v 1%nat) * pos (v 1%nat) / ((v 1%nat - v 0%nat) * (v 1%nat - v 2%nat) * (v 1%nat - v 3%nat)) +
  pos (v 2%nat) * pos (v 2%nat) * pos (v 2%nat) / ((v 2%nat - v 0%nat) * (v 2%nat - v 1%nat) * (v 2%nat - v 3%nat)) +
  pos (v 3%nat) * pos (v 3%nat) * pos (v 3%nat) / ((v 3%nat - v 0%nat) * (v 3%nat - v 1%nat) * (v 3%nat - v 2%nat)).
Definition distinct (v : nat -> Q) (n : nat) : Prop := forall i j, (i < n)%nat -> (j < n)%nat -> i <> j -> ~ v i == v j.

(** ** Classes of values *)

Lemma eps_pos : 0 < eps. Proof. reflexivity. Qed.

Lemma cls x :
  (is_zero x = true /\ is_plus x = false /\ is_minus x = false /\ - eps < x /\ x < eps) \/
  (is_zero x = false /\ is_plus x = true /\ is_minus x = false /\ eps <= x) \/
  (is_zero x = false /\ is_plus x = false /\ is_minus x = true /\ x <= - eps).
Proof.
  unfold is_plus, is_minus, is_zero. destruct (Qltb_spec (Qabs x) eps) as [[-> H]|[-> H]].
  - left. cbn. repeat split; auto; apply Qabs_Qlt_condition in H; tauto.
  - right. destruct (Qle_bool eps x) eqn:E.
    + left. apply Qle_bool_iff in E. auto.
    + right. cbn. repeat split; auto.
      assert (N : ~ eps <= x) by (intros X; apply Qle_bool_iff in X; congruence).
      apply Qnot_le_lt in N. revert H. apply Qabs_case; intros; lra.
Qed.

Lemma snap_zero v n i : snapped v n -> (i < n)%nat -> - eps < v i -> v i < eps -> v i == 0.
Proof.
  intros S Hi H1 H2. destruct (S i Hi) as [E|E]; [exact E|]. exfalso. revert E. apply Qabs_case; intros; lra.
Qed.

Lemma pos_plus x : 0 <= x -> pos x == x.
Proof. intros H. unfold pos. destruct (Qltb_spec 0 x) as [[-> H']|[-> H']]; lra. Qed.
Lemma pos_minus x : x <= 0 -> pos x == 0.
Proof. intros H. unfold pos. destruct (Qltb_spec 0 x) as [[-> H']|[-> H']]; lra. Qed.

Lemma Qabs_scale c d x : x == c * d -> 0 <= c -> Qabs x == Qabs d * c.
Proof. intros -> H. rewrite Qabs_Qmult, (Qabs_pos c) by exact H. ring. Qed.

Lemma ratio_pos a b : 0 < b /\ 0 <= a \/ b < 0 /\ a <= 0 -> 0 <= a / b.
Proof.
  intros [[H1 H2]|[H1 H2]].
  - apply Qle_shift_div_l; [exact H1|lra].
  - setoid_replace (a / b) with ((- a) / (- b)) by (field; intros X; rewrite X in H1; now apply Qlt_irrefl in H1).
    apply Qle_shift_div_l; lra.
Qed.

Lemma ratio_le1 a b : 0 < b /\ a <= b \/ b < 0 /\ b <= a -> a / b <= 1.
Proof.
  intros [[H1 H2]|[H1 H2]].
  - apply Qle_shift_div_r; [exact H1|lra].
  - setoid_replace (a / b) with ((- a) / (- b)) by (field; intros X; rewrite X in H1; now apply Qlt_irrefl in H1).
    apply Qle_shift_div_r; lra.
Qed.

Lemma prod_pos a b : 0 <= a -> 0 <= b -> 0 <= a * b.
Proof. apply Qmult_le_0_compat. Qed.

Lemma prod_le1 a b : 0 <= a -> a <= 1 -> 0 <= b -> b <= 1 -> a * b <= 1.
Proof.
  intros. apply Qle_trans with (1 * b); [apply Qmult_le_compat_r; assumption|]. rewrite Qmult_1_l. assumption.
Qed.

(** ** Points of edges *)

Definition seg (p q : v3) (l : Q) : v3 :=
  mkV (cx p + l * (cx q - cx p)) (cy p + l * (cy q - cy p)) (cz p + l * (cz q - cz p)).

Definition veq (a b : v3) : Prop := cx a == cx b /\ cy a == cy b /\ cz a == cz b.

Lemma det_veq a b c d a' b' c' d' : veq a a' -> veq b b' -> veq c c' -> veq d d' -> det4pt a b c d == det4pt a' b' c' d'.
Proof.
  intros (A1 & A2 & A3) (B1 & B2 & B3) (C1 & C2 & C3) (D1 & D2 & D3). unfold det4pt, det3pt1vec. cbn [cx cy cz].
  rewrite A1, A2, A3, B1, B2, B3, C1, C2, C3, D1, D2, D3. reflexivity.
Qed.

Lemma veq_refl a : veq a a. Proof. repeat split; reflexivity. Qed.

Lemma cross_seg p v i j : veq (cross p v i j) (seg (p i) (p j) (v i / (v i - v j))).
Proof. apply veq_refl. Qed.

Lemma cross_sym p v i j : ~ v i == v j -> veq (cross p v i j) (seg (p j) (p i) (v j / (v j - v i))).
Proof.
  intros N. unfold cross, seg, veq. cbn [cx cy cz].
  assert (v i - v j == 0 -> False) by (intros X; apply N; lra).
  assert (v j - v i == 0 -> False) by (intros X; apply N; lra).
  repeat split; field; auto.
Qed.

(** ** One vertex on its side *)

Definition frac1 (v : nat -> Q) (i0 i1 i2 i3 : nat) : Q :=
  (v i0 / (v i0 - v i1)) * (v i0 / (v i0 - v i2)) * (v i0 / (v i0 - v i3)).

Lemma det_seg P0 P1 P2 P3 a b c :
  det4pt P0 (seg P0 P1 a) (seg P0 P2 b) (seg P0 P3 c) == a * b * c * det4pt P0 P1 P2 P3.
Proof. unfold det4pt, det3pt1vec, seg. cbn [cx cy cz]. ring. Qed.

Lemma one_vertex p v i0 :
  (i0 < 4)%nat ->
  let i1 := nth 0 (idir i0) 0%nat in let i2 := nth 1 (idir i0) 0%nat in let i3 := nth 2 (idir i0) 0%nat in
  0 <= v i0 / (v i0 - v i1) -> 0 <= v i0 / (v i0 - v i2) -> 0 <= v i0 / (v i0 - v i3) ->
  vfrac_1vertex p i0 v false == vol6 p * frac1 v i0 i1 i2 i3 /\
  vfrac_1vertex p i0 v true == vol6 p * (1 - frac1 v i0 i1 i2 i3).
Proof.
  intros Hi i1 i2 i3 H1 H2 H3.
  assert (E : Qabs (det4pt (p i0) (cross p v i0 i1) (cross p v i0 i2) (cross p v i0 i3)) == vol6 p * frac1 v i0 i1 i2 i3).
  { unfold vol6. apply Qabs_scale; [|unfold frac1; auto using prod_pos].
    change (cross p v i0 i1) with (seg (p i0) (p i1) (v i0 / (v i0 - v i1))).
    change (cross p v i0 i2) with (seg (p i0) (p i2) (v i0 / (v i0 - v i2))).
    change (cross p v i0 i3) with (seg (p i0) (p i3) (v i0 / (v i0 - v i3))).
    rewrite det_seg. unfold frac1. 
    assert (Ed : det4pt (p i0) (p i1) (p i2) (p i3) == det4pt (p 0%nat) (p 1%nat) (p 2%nat) (p 3%nat)).
    { subst i1 i2 i3. destruct i0 as [|[|[|[|i0]]]]; [| | | |exfalso; lia]; cbn [nth idir];
        unfold det4pt, det3pt1vec; cbn [cx cy cz]; ring. }
    rewrite Ed. reflexivity. }
  unfold vfrac_1vertex. fold i1 i2 i3. cbn [negb]. split; [exact E|]. rewrite E. unfold vol6. ring.
Qed.

(** ** Two vertices on each side *)

Section Two.
  Variables (P0 P1 P2 P3 : v3) (a1 a2 b3 b4 : Q).
  Let D := det4pt P0 P1 P2 P3.
  Let o1 := seg P0 P2 a1.
  Let o2 := seg P0 P3 a2.
  Let o3 := seg P1 P2 b3.
  Let o4 := seg P1 P3 b4.

  Lemma dets01 : det4pt P0 P1 o3 o4 == b3 * b4 * D /\ det4pt P0 o4 o3 o2 == (1 - b4) * b3 * a2 * D /\
    det4pt P0 o3 o1 o2 == (1 - b3) * a1 * a2 * D.
  Proof. unfold D, o1, o2, o3, o4, det4pt, det3pt1vec, seg. cbn [cx cy cz]. repeat split; ring. Qed.

  Lemma dets23 : det4pt o2 o4 P2 P3 == (1 - a2) * (1 - b4) * D /\ det4pt o2 o3 P2 o4 == (1 - a2) * (1 - b3) * b4 * D /\
    det4pt o1 o3 P2 o2 == (1 - a1) * (1 - b3) * a2 * D.
  Proof. unfold D, o1, o2, o3, o4, det4pt, det3pt1vec, seg. cbn [cx cy cz]. repeat split; ring. Qed.
End Two.

Definition frac2 (a1 a2 b3 b4 : Q) : Q := b3 * b4 + (1 - b4) * b3 * a2 + (1 - b3) * a1 * a2.

Lemma two_two (p o : nat -> v3) (tau ed : list nat) a1 a2 b3 b4 :
  let t i := p (nth i tau 0%nat) in let e i := o (nth i ed 0%nat) in
  veq (e 1%nat) (seg (t 0%nat) (t 2%nat) a1) -> veq (e 2%nat) (seg (t 0%nat) (t 3%nat) a2) ->
  veq (e 3%nat) (seg (t 1%nat) (t 2%nat) b3) -> veq (e 4%nat) (seg (t 1%nat) (t 3%nat) b4) ->
  0 <= a1 -> a1 <= 1 -> 0 <= a2 -> a2 <= 1 -> 0 <= b3 -> b3 <= 1 -> 0 <= b4 -> b4 <= 1 ->
  let D := Qabs (det4pt (t 0%nat) (t 1%nat) (t 2%nat) (t 3%nat)) in
  part01 p o tau ed == D * frac2 a1 a2 b3 b4 /\ part23 p o tau ed == D * (1 - frac2 a1 a2 b3 b4) /\
  0 <= frac2 a1 a2 b3 b4 /\ frac2 a1 a2 b3 b4 <= 1.
Proof.
  intros t e E1 E2 E3 E4 A1 A1' A2 A2' B3 B3' B4 B4' D.
  assert (N1 : 0 <= 1 - a1) by lra. assert (N2 : 0 <= 1 - a2) by lra. assert (N3 : 0 <= 1 - b3) by lra. assert (N4 : 0 <= 1 - b4) by lra.
  destruct (dets01 (t 0%nat) (t 1%nat) (t 2%nat) (t 3%nat) a1 a2 b3 b4) as (F1 & F2 & F3).
  destruct (dets23 (t 0%nat) (t 1%nat) (t 2%nat) (t 3%nat) a1 a2 b3 b4) as (G1 & G2 & G3).
  assert (H01 : part01 p o tau ed == D * frac2 a1 a2 b3 b4).
  { unfold part01. fold (t 0%nat) (t 1%nat) (e 1%nat) (e 2%nat) (e 3%nat) (e 4%nat).
    rewrite (Qabs_scale (b3 * b4) (det4pt (t 0%nat) (t 1%nat) (t 2%nat) (t 3%nat)) (det4pt (t 0%nat) (t 1%nat) (e 3%nat) (e 4%nat))).
    rewrite (Qabs_scale ((1 - b4) * b3 * a2) (det4pt (t 0%nat) (t 1%nat) (t 2%nat) (t 3%nat)) (det4pt (t 0%nat) (e 4%nat) (e 3%nat) (e 2%nat))).
    rewrite (Qabs_scale ((1 - b3) * a1 * a2) (det4pt (t 0%nat) (t 1%nat) (t 2%nat) (t 3%nat)) (det4pt (t 0%nat) (e 3%nat) (e 1%nat) (e 2%nat))).
    - unfold D, frac2. ring.
    - rewrite <- F3. apply det_veq; auto using veq_refl.
    - auto using prod_pos.
    - rewrite <- F2. apply det_veq; auto using veq_refl.
    - auto using prod_pos.
    - rewrite <- F1. apply det_veq; auto using veq_refl.
    - auto using prod_pos. }
  assert (H23 : part23 p o tau ed == D * (1 - frac2 a1 a2 b3 b4)).
  { unfold part23. fold (t 2%nat) (t 3%nat) (e 1%nat) (e 2%nat) (e 3%nat) (e 4%nat).
    rewrite (Qabs_scale ((1 - a2) * (1 - b4)) (det4pt (t 0%nat) (t 1%nat) (t 2%nat) (t 3%nat)) (det4pt (e 2%nat) (e 4%nat) (t 2%nat) (t 3%nat))).
    rewrite (Qabs_scale ((1 - a2) * (1 - b3) * b4) (det4pt (t 0%nat) (t 1%nat) (t 2%nat) (t 3%nat)) (det4pt (e 2%nat) (e 3%nat) (t 2%nat) (e 4%nat))).
    rewrite (Qabs_scale ((1 - a1) * (1 - b3) * a2) (det4pt (t 0%nat) (t 1%nat) (t 2%nat) (t 3%nat)) (det4pt (e 1%nat) (e 3%nat) (t 2%nat) (e 2%nat))).
    - unfold D, frac2. ring.
    - rewrite <- G3. apply det_veq; auto using veq_refl.
    - auto using prod_pos.
    - rewrite <- G2. apply det_veq; auto using veq_refl.
    - auto using prod_pos.
    - rewrite <- G1. apply det_veq; auto using veq_refl.
    - auto using prod_pos. }
  split; [exact H01|]. split; [exact H23|]. unfold frac2.
  assert (X1 : 0 <= b3 * b4) by auto using prod_pos.
  assert (X2 : 0 <= (1 - b4) * b3 * a2) by auto using prod_pos.
  assert (X3 : 0 <= (1 - b3) * a1 * a2) by auto using prod_pos.
  assert (Y1 : 0 <= (1 - a2) * (1 - b4)) by auto using prod_pos.
  assert (Y2 : 0 <= (1 - a2) * (1 - b3) * b4) by auto using prod_pos.
  assert (Y3 : 0 <= (1 - a1) * (1 - b3) * a2) by auto using prod_pos.
  split; [lra|].
  assert (S : b3 * b4 + (1 - b4) * b3 * a2 + (1 - b3) * a1 * a2 + ((1 - a2) * (1 - b4) + (1 - a2) * (1 - b3) * b4 + (1 - a1) * (1 - b3) * a2) == 1) by ring.
  lra.
Qed.

(** ** The sum over the configurations *)

Lemma ratio_opp x y : x <= - eps /\ - eps < y \/ eps <= x /\ y < eps -> 0 <= x / (x - y).
Proof. intros H. pose proof eps_pos. apply ratio_pos. destruct H as [[? ?]|[? ?]]; [right|left]; lra. Qed.

Lemma ratio_opp1 x y : x <= - eps /\ 0 <= y \/ eps <= x /\ y <= 0 -> x / (x - y) <= 1.
Proof. intros H. pose proof eps_pos. apply ratio_le1. destruct H as [[? ?]|[? ?]]; [right|left]; lra. Qed.

(** What is proved of a pair of parts [a], [b] and of the fraction [c]. *)
Definition parts (p : nat -> v3) (v : nat -> Q) (a b : Q) : Prop :=
  exists c, a == vol6 p * c /\ b == vol6 p * (1 - c) /\
    (snapped v 4 -> 0 <= c /\ c <= 1 /\ (distinct v 4 -> c == positive3 v)).

Lemma distinct_diff v n i j : distinct v n -> (i < n)%nat -> (j < n)%nat -> i <> j -> v i - v j == 0 -> False.
Proof. intros D Hi Hj N E. apply (D i j Hi Hj N). lra. Qed.

Lemma sum_one (x0 x1 x2 x3 : Q) :
  ~ x0 - x1 == 0 -> ~ x0 - x2 == 0 -> ~ x0 - x3 == 0 -> ~ x1 - x2 == 0 -> ~ x1 - x3 == 0 -> ~ x2 - x3 == 0 ->
  ~ x1 - x0 == 0 -> ~ x2 - x0 == 0 -> ~ x3 - x0 == 0 -> ~ x2 - x1 == 0 -> ~ x3 - x1 == 0 -> ~ x3 - x2 == 0 ->
  x0 * x0 * x0 / ((x0 - x1) * (x0 - x2) * (x0 - x3)) + x1 * x1 * x1 / ((x1 - x0) * (x1 - x2) * (x1 - x3)) +
  x2 * x2 * x2 / ((x2 - x0) * (x2 - x1) * (x2 - x3)) + x3 * x3 * x3 / ((x3 - x0) * (x3 - x1) * (x3 - x2)) == 1.
Proof. intros. field. repeat split; auto. Qed.

Ltac diffs D :=
  pose proof (distinct_diff _ _ 0 1 D ltac:(lia) ltac:(lia) ltac:(lia)); pose proof (distinct_diff _ _ 0 2 D ltac:(lia) ltac:(lia) ltac:(lia));
  pose proof (distinct_diff _ _ 0 3 D ltac:(lia) ltac:(lia) ltac:(lia)); pose proof (distinct_diff _ _ 1 2 D ltac:(lia) ltac:(lia) ltac:(lia));
  pose proof (distinct_diff _ _ 1 3 D ltac:(lia) ltac:(lia) ltac:(lia)); pose proof (distinct_diff _ _ 2 3 D ltac:(lia) ltac:(lia) ltac:(lia));
  pose proof (distinct_diff _ _ 1 0 D ltac:(lia) ltac:(lia) ltac:(lia)); pose proof (distinct_diff _ _ 2 0 D ltac:(lia) ltac:(lia) ltac:(lia));
  pose proof (distinct_diff _ _ 3 0 D ltac:(lia) ltac:(lia) ltac:(lia)); pose proof (distinct_diff _ _ 2 1 D ltac:(lia) ltac:(lia) ltac:(lia));
  pose proof (distinct_diff _ _ 3 1 D ltac:(lia) ltac:(lia) ltac:(lia)); pose proof (distinct_diff _ _ 3 2 D ltac:(lia) ltac:(lia) ltac:(lia)).

Lemma positive_all v : distinct v 4 -> (forall i, (i < 4)%nat -> 0 <= v i) -> positive3 v == 1.
Proof.
  intros D H. diffs D. unfold positive3. rewrite !pos_plus by (apply H; lia). apply sum_one; assumption.
Qed.

Lemma positive_none v : distinct v 4 -> (forall i, (i < 4)%nat -> v i <= 0) -> positive3 v == 0.
Proof.
  intros D H. diffs D. unfold positive3. rewrite !pos_minus by (apply H; lia). field. repeat split; assumption.
Qed.

Lemma positive_but v i0 : distinct v 4 -> (i0 < 4)%nat -> (forall i, (i < 4)%nat -> i <> i0 -> 0 <= v i) -> v i0 <= 0 ->
  positive3 v == 1 - frac1 v i0 (nth 0 (idir i0) 0%nat) (nth 1 (idir i0) 0%nat) (nth 2 (idir i0) 0%nat).
Proof.
  intros D Hi H Hm. diffs D. unfold positive3, frac1.
  destruct i0 as [|[|[|[|i0]]]]; [| | | |exfalso; lia]; cbn [nth idir].
  - rewrite (pos_minus (v 0%nat)), (pos_plus (v 1%nat)), (pos_plus (v 2%nat)), (pos_plus (v 3%nat)) by (assumption || (apply H; lia)).
    rewrite <- (sum_one (v 0%nat) (v 1%nat) (v 2%nat) (v 3%nat)) by assumption. field; repeat split; assumption.
  - rewrite (pos_minus (v 1%nat)), (pos_plus (v 0%nat)), (pos_plus (v 2%nat)), (pos_plus (v 3%nat)) by (assumption || (apply H; lia)).
    rewrite <- (sum_one (v 0%nat) (v 1%nat) (v 2%nat) (v 3%nat)) by assumption. field; repeat split; assumption.
  - rewrite (pos_minus (v 2%nat)), (pos_plus (v 1%nat)), (pos_plus (v 0%nat)), (pos_plus (v 3%nat)) by (assumption || (apply H; lia)).
    rewrite <- (sum_one (v 0%nat) (v 1%nat) (v 2%nat) (v 3%nat)) by assumption. field; repeat split; assumption.
  - rewrite (pos_minus (v 3%nat)), (pos_plus (v 1%nat)), (pos_plus (v 2%nat)), (pos_plus (v 0%nat)) by (assumption || (apply H; lia)).
    rewrite <- (sum_one (v 0%nat) (v 1%nat) (v 2%nat) (v 3%nat)) by assumption. field; repeat split; assumption.
Qed.

Lemma positive_only v i0 : distinct v 4 -> (i0 < 4)%nat -> (forall i, (i < 4)%nat -> i <> i0 -> v i <= 0) -> 0 <= v i0 ->
  positive3 v == frac1 v i0 (nth 0 (idir i0) 0%nat) (nth 1 (idir i0) 0%nat) (nth 2 (idir i0) 0%nat).
Proof.
  intros D Hi H Hm. diffs D. unfold positive3, frac1.
  destruct i0 as [|[|[|[|i0]]]]; [| | | |exfalso; lia]; cbn [nth idir].
  - rewrite (pos_plus (v 0%nat)), (pos_minus (v 1%nat)), (pos_minus (v 2%nat)), (pos_minus (v 3%nat)) by (assumption || (apply H; lia)).
    field; repeat split; assumption.
  - rewrite (pos_plus (v 1%nat)), (pos_minus (v 0%nat)), (pos_minus (v 2%nat)), (pos_minus (v 3%nat)) by (assumption || (apply H; lia)).
    field; repeat split; assumption.
  - rewrite (pos_plus (v 2%nat)), (pos_minus (v 1%nat)), (pos_minus (v 0%nat)), (pos_minus (v 3%nat)) by (assumption || (apply H; lia)).
    field; repeat split; assumption.
  - rewrite (pos_plus (v 3%nat)), (pos_minus (v 1%nat)), (pos_minus (v 2%nat)), (pos_minus (v 0%nat)) by (assumption || (apply H; lia)).
    field; repeat split; assumption.
Qed.

Definition fr (x y : Q) : Q := x / (x - y).

(** Two positive values [x0], [x1]. *)
Lemma frac2_pos (x0 x1 x2 x3 : Q) :
  ~ x0 - x1 == 0 -> ~ x0 - x2 == 0 -> ~ x0 - x3 == 0 -> ~ x1 - x2 == 0 -> ~ x1 - x3 == 0 -> ~ x1 - x0 == 0 ->
  frac2 (fr x0 x2) (fr x0 x3) (fr x1 x2) (fr x1 x3) ==
  x0 * x0 * x0 / ((x0 - x1) * (x0 - x2) * (x0 - x3)) + x1 * x1 * x1 / ((x1 - x0) * (x1 - x2) * (x1 - x3)).
Proof. intros. unfold frac2, fr. field. repeat split; auto. Qed.

Lemma cut_opp v ia : (let '(i0, i1) := iare ia in eps <= v i0 /\ v i1 <= - eps \/ v i0 <= - eps /\ eps <= v i1) -> cut v ia = true.
Proof.
  unfold cut. destruct (iare ia) as [i0 i1]. intros H. pose proof eps_pos.
  assert (E : EPSD2 < eps) by reflexivity.
  destruct (Qltb_spec (Qabs (v i0)) EPSD2) as [[-> H1]|[-> H1]].
  { exfalso. apply Qabs_Qlt_condition in H1. destruct H; lra. }
  destruct (Qltb_spec (Qabs (v i1)) EPSD2) as [[-> H2]|[-> H2]].
  { exfalso. apply Qabs_Qlt_condition in H2. destruct H; lra. }
  destruct (Qltb_spec 0 (v i0 * v i1)) as [[-> H3]|[-> H3]]; [exfalso|reflexivity].
  destruct H as [[A B]|[A B]].
  - assert (0 <= v i0 * - v i1) by (apply prod_pos; lra). lra.
  - assert (0 <= - v i0 * v i1) by (apply prod_pos; lra). lra.
Qed.

Lemma cut_same v ia : (let '(i0, i1) := iare ia in eps <= v i0 /\ eps <= v i1 \/ v i0 <= - eps /\ v i1 <= - eps) -> cut v ia = false.
Proof.
  unfold cut. destruct (iare ia) as [i0 i1]. intros H. pose proof eps_pos.
  destruct (Qltb_spec (Qabs (v i0)) EPSD2) as [[-> H1]|[-> H1]]; [reflexivity|].
  destruct (Qltb_spec (Qabs (v i1)) EPSD2) as [[-> H2]|[-> H2]]; [reflexivity|].
  destruct (Qltb_spec 0 (v i0 * v i1)) as [[-> H3]|[-> H3]]; [reflexivity|exfalso].
  destruct H as [[A B]|[A B]].
  - assert (0 < v i0 * v i1) by (apply Qmult_lt_0_compat; lra). lra.
  - assert (0 < - v i0 * - v i1) by (apply Qmult_lt_0_compat; lra). lra.
Qed.

Lemma inter_seg p v ia : cut v ia = true ->
  let '(i0, i1) := iare ia in veq (inter p v ia) (seg (p i0) (p i1) (fr (v i0) (v i1))).
Proof. intros H. unfold inter. rewrite H. destruct (iare ia). apply veq_refl. Qed.

Lemma inter_seg' p v ia : cut v ia = true ->
  let '(i0, i1) := iare ia in ~ v i0 == v i1 -> veq (inter p v ia) (seg (p i1) (p i0) (fr (v i1) (v i0))).
Proof. intros H. unfold inter. rewrite H. destruct (iare ia). apply cross_sym. Qed.

(** The three configurations with two vertices on each side. *)
Definition opposite (x y z t : Q) : Prop :=
  (eps <= x /\ eps <= y /\ z <= - eps /\ t <= - eps) \/ (x <= - eps /\ y <= - eps /\ eps <= z /\ eps <= t).

Lemma two_two_cfg p v f :
  f = 30%Z \/ f = 45%Z \/ f = 51%Z ->
  let tau := fst (config f) in let ed := snd (config f) in
  let w i := v (nth i tau 0%nat) in
  opposite (w 0%nat) (w 1%nat) (w 2%nat) (w 3%nat) ->
  flag v = f /\
  let c := frac2 (fr (w 0%nat) (w 2%nat)) (fr (w 0%nat) (w 3%nat)) (fr (w 1%nat) (w 2%nat)) (fr (w 1%nat) (w 3%nat)) in
  part01 p (inter p v) tau ed == vol6 p * c /\ part23 p (inter p v) tau ed == vol6 p * (1 - c) /\
  0 <= c /\ c <= 1 /\
  (distinct v 4 -> positive3 v == if Qltb (w 0%nat) 0 then 1 - c else c).
Proof.
  intros Hf tau ed w O. pose proof eps_pos as Ep.
  assert (B : forall x y, eps <= x /\ y <= - eps \/ x <= - eps /\ eps <= y -> 0 <= fr x y /\ fr x y <= 1 /\ ~ x == y).
  { clear - Ep. intros x y H. unfold fr. split; [|split].
    - apply ratio_pos. destruct H as [[? ?]|[? ?]]; [left|right]; lra.
    - apply ratio_le1. destruct H as [[? ?]|[? ?]]; [left|right]; lra.
    - intros X. destruct H as [[? ?]|[? ?]]; lra. }
  assert (X02 : eps <= w 0%nat /\ w 2%nat <= - eps \/ w 0%nat <= - eps /\ eps <= w 2%nat) by (unfold opposite in O; clear - O; tauto).
  assert (X03 : eps <= w 0%nat /\ w 3%nat <= - eps \/ w 0%nat <= - eps /\ eps <= w 3%nat) by (unfold opposite in O; clear - O; tauto).
  assert (X12 : eps <= w 1%nat /\ w 2%nat <= - eps \/ w 1%nat <= - eps /\ eps <= w 2%nat) by (unfold opposite in O; clear - O; tauto).
  assert (X13 : eps <= w 1%nat /\ w 3%nat <= - eps \/ w 1%nat <= - eps /\ eps <= w 3%nat) by (unfold opposite in O; clear - O; tauto).
  assert (S01 : eps <= w 0%nat /\ eps <= w 1%nat \/ w 0%nat <= - eps /\ w 1%nat <= - eps) by (unfold opposite in O; clear - O; tauto).
  assert (S23 : eps <= w 2%nat /\ eps <= w 3%nat \/ w 2%nat <= - eps /\ w 3%nat <= - eps) by (unfold opposite in O; clear - O; tauto).
  destruct (B _ _ X02) as (A1 & A1' & N02), (B _ _ X03) as (A2 & A2' & N03), (B _ _ X12) as (B3 & B3' & N12), (B _ _ X13) as (B4 & B4' & N13).
  assert (Sym : forall x y, eps <= x /\ y <= - eps \/ x <= - eps /\ eps <= y -> eps <= y /\ x <= - eps \/ y <= - eps /\ eps <= x) by (clear; tauto).
  assert (Sym' : forall x y, eps <= x /\ eps <= y \/ x <= - eps /\ y <= - eps -> eps <= y /\ eps <= x \/ y <= - eps /\ x <= - eps) by (clear; tauto).
  assert (Nsym : forall x y : Q, ~ x == y -> ~ y == x) by (clear; intros x y H E; apply H; symmetry; exact E).
  assert (F : flag v = f /\
     (veq (inter p v (nth 1 ed 0%nat)) (seg (p (nth 0 tau 0%nat)) (p (nth 2 tau 0%nat)) (fr (w 0%nat) (w 2%nat))) /\
      veq (inter p v (nth 2 ed 0%nat)) (seg (p (nth 0 tau 0%nat)) (p (nth 3 tau 0%nat)) (fr (w 0%nat) (w 3%nat))) /\
      veq (inter p v (nth 3 ed 0%nat)) (seg (p (nth 1 tau 0%nat)) (p (nth 2 tau 0%nat)) (fr (w 1%nat) (w 2%nat))) /\
      veq (inter p v (nth 4 ed 0%nat)) (seg (p (nth 1 tau 0%nat)) (p (nth 3 tau 0%nat)) (fr (w 1%nat) (w 3%nat)))) /\
     det4pt (p (nth 0 tau 0%nat)) (p (nth 1 tau 0%nat)) (p (nth 2 tau 0%nat)) (p (nth 3 tau 0%nat)) ==
     det4pt (p 0%nat) (p 1%nat) (p 2%nat) (p 3%nat)).
  { unfold flag. destruct Hf as [-> | [-> | ->]]; cbn [config fst snd] in tau, ed; subst tau ed; unfold w in *; cbn [nth] in *; cbn [fold_right].
    - assert (K1 : cut v 1 = true) by (apply cut_opp; cbn; auto).
      assert (K2 : cut v 2 = true) by (apply cut_opp; cbn; auto).
      assert (K3 : cut v 3 = true) by (apply cut_opp; cbn; auto).
      assert (K4 : cut v 4 = true) by (apply cut_opp; cbn; auto).
      rewrite (cut_same v 0), (cut_same v 5), K1, K2, K3, K4 by (cbn; auto).
      split; [reflexivity|]. split; [|reflexivity]. exact (conj (inter_seg p v 1 K1) (conj (inter_seg p v 2 K2) (conj (inter_seg p v 3 K3) (inter_seg p v 4 K4)))).
    - assert (K0 : cut v 0 = true) by (apply cut_opp; cbn; auto).
      assert (K2 : cut v 2 = true) by (apply cut_opp; cbn; auto).
      assert (K3 : cut v 3 = true) by (apply cut_opp; cbn; auto).
      assert (K5 : cut v 5 = true) by (apply cut_opp; cbn; auto).
      rewrite (cut_same v 1), (cut_same v 4), K0, K2, K3, K5 by (cbn; auto).
      split; [reflexivity|]. split; [|unfold det4pt, det3pt1vec; cbn [cx cy cz]; ring].
      split; [exact (inter_seg p v 3 K3)|]. split; [exact (inter_seg' p v 0 K0 (Nsym _ _ N03))|].
      split; [exact (inter_seg' p v 5 K5 (Nsym _ _ N12))|exact (inter_seg' p v 2 K2 (Nsym _ _ N13))].
    - assert (K0 : cut v 0 = true) by (apply cut_opp; cbn; auto).
      assert (K1 : cut v 1 = true) by (apply cut_opp; cbn; auto).
      assert (K4 : cut v 4 = true) by (apply cut_opp; cbn; auto).
      assert (K5 : cut v 5 = true) by (apply cut_opp; cbn; auto).
      rewrite (cut_same v 2), (cut_same v 3), K0, K1, K4, K5 by (cbn; auto).
      split; [reflexivity|]. split; [|unfold det4pt, det3pt1vec; cbn [cx cy cz]; ring].
      split; [exact (inter_seg' p v 0 K0 (Nsym _ _ N02))|]. split; [exact (inter_seg p v 4 K4)|].
      split; [exact (inter_seg' p v 1 K1 (Nsym _ _ N12))|exact (inter_seg p v 5 K5)]. }
  destruct F as (F & (I1 & I2 & I3 & I4) & Ed). split; [exact F|]. intros c.
  destruct (two_two p (inter p v) tau ed _ _ _ _ I1 I2 I3 I4 A1 A1' A2 A2' B3 B3' B4 B4') as (T1 & T2 & T3 & T4).
  split; [|split; [|split; [exact T3|split; [exact T4|]]]].
  - rewrite T1. unfold vol6. rewrite Ed. reflexivity.
  - rewrite T2. unfold vol6. rewrite Ed. reflexivity.
  - intros D. diffs D.
    assert (Ec : c == w 0%nat * w 0%nat * w 0%nat / ((w 0%nat - w 1%nat) * (w 0%nat - w 2%nat) * (w 0%nat - w 3%nat)) +
                     w 1%nat * w 1%nat * w 1%nat / ((w 1%nat - w 0%nat) * (w 1%nat - w 2%nat) * (w 1%nat - w 3%nat))).
    { unfold c. destruct Hf as [-> | [-> | ->]]; cbn [config fst snd] in tau; subst tau; unfold w; cbn [nth]; apply frac2_pos; assumption. }
    clear I1 I2 I3 I4 T1 T2 T3 T4 F Ed. clearbody c.
    destruct (Qltb_spec (w 0%nat) 0) as [[-> L]|[-> L]]; rewrite Ec; clear Ec.
    + assert (M : w 1%nat <= 0 /\ w 0%nat <= 0 /\ 0 <= w 2%nat /\ 0 <= w 3%nat) by (unfold opposite in O; clear - O L Ep; destruct O as [O|O]; lra).
      destruct M as (M1 & M0 & M2 & M3). unfold positive3.
      destruct Hf as [-> | [-> | ->]]; cbn [config fst snd] in tau; subst tau; unfold w in *; cbn [nth] in *.
      * rewrite (pos_minus (v 0%nat)), (pos_minus (v 1%nat)), (pos_plus (v 2%nat)), (pos_plus (v 3%nat)) by assumption.
        rewrite <- (sum_one (v 0%nat) (v 1%nat) (v 2%nat) (v 3%nat)) by assumption. field; repeat split; assumption.
      * rewrite (pos_minus (v 1%nat)), (pos_minus (v 3%nat)), (pos_plus (v 2%nat)), (pos_plus (v 0%nat)) by assumption.
        rewrite <- (sum_one (v 0%nat) (v 1%nat) (v 2%nat) (v 3%nat)) by assumption. field; repeat split; assumption.
      * rewrite (pos_minus (v 1%nat)), (pos_minus (v 2%nat)), (pos_plus (v 0%nat)), (pos_plus (v 3%nat)) by assumption.
        rewrite <- (sum_one (v 0%nat) (v 1%nat) (v 2%nat) (v 3%nat)) by assumption. field; repeat split; assumption.
    + assert (M : 0 <= w 1%nat /\ 0 <= w 0%nat /\ w 2%nat <= 0 /\ w 3%nat <= 0) by (unfold opposite in O; clear - O L Ep; destruct O as [O|O]; lra).
      destruct M as (M1 & M0 & M2 & M3). unfold positive3.
      destruct Hf as [-> | [-> | ->]]; cbn [config fst snd] in tau; subst tau; unfold w in *; cbn [nth] in *.
      * rewrite (pos_plus (v 0%nat)), (pos_plus (v 1%nat)), (pos_minus (v 2%nat)), (pos_minus (v 3%nat)) by assumption.
        field; repeat split; assumption.
      * rewrite (pos_plus (v 1%nat)), (pos_plus (v 3%nat)), (pos_minus (v 2%nat)), (pos_minus (v 0%nat)) by assumption.
        field; repeat split; assumption.
      * rewrite (pos_plus (v 1%nat)), (pos_plus (v 2%nat)), (pos_minus (v 0%nat)), (pos_minus (v 3%nat)) by assumption.
        field; repeat split; assumption.
Qed.

Lemma snap_nonneg v n i : snapped v n -> (i < n)%nat -> - eps < v i -> 0 <= v i.
Proof. intros S Hi H. pose proof eps_pos. destruct (S i Hi) as [E|E]; [lra|]. revert E. apply Qabs_case; intros; lra. Qed.
Lemma snap_nonpos v n i : snapped v n -> (i < n)%nat -> v i < eps -> v i <= 0.
Proof. intros S Hi H. pose proof eps_pos. destruct (S i Hi) as [E|E]; [lra|]. revert E. apply Qabs_case; intros; lra. Qed.

Lemma parts_all p v : (forall i, (i < 4)%nat -> - eps < v i) -> parts p v (vol6 p) 0.
Proof.
  intros H. exists 1. split; [ring|]. split; [ring|]. intros S. split; [lra|]. split; [lra|].
  intros D. symmetry. apply positive_all; [exact D|]. intros i Hi. apply (snap_nonneg v 4); auto.
Qed.

Lemma parts_none p v : (forall i, (i < 4)%nat -> v i < eps) -> parts p v 0 (vol6 p).
Proof.
  intros H. exists 0. split; [ring|]. split; [ring|]. intros S. split; [lra|]. split; [lra|].
  intros D. symmetry. apply positive_none; [exact D|]. intros i Hi. apply (snap_nonpos v 4); auto.
Qed.

Lemma idir_other i0 k : (i0 < 4)%nat -> (k < 3)%nat -> (nth k (idir i0) 0 < 4 /\ nth k (idir i0) 0 <> i0)%nat.
Proof. intros H1 H2. destruct i0 as [|[|[|[|i0]]]]; [| | | |lia]; destruct k as [|[|[|k]]]; try lia; cbn; lia. Qed.

Lemma frac1_bounds v i0 :
  (i0 < 4)%nat -> (forall i, (i < 4)%nat -> i <> i0 -> 0 <= v i0 / (v i0 - v i) /\ v i0 / (v i0 - v i) <= 1) ->
  0 <= frac1 v i0 (nth 0 (idir i0) 0%nat) (nth 1 (idir i0) 0%nat) (nth 2 (idir i0) 0%nat) /\
  frac1 v i0 (nth 0 (idir i0) 0%nat) (nth 1 (idir i0) 0%nat) (nth 2 (idir i0) 0%nat) <= 1.
Proof.
  intros Hi H.
  destruct (idir_other i0 0 Hi ltac:(lia)) as [A1 A2], (idir_other i0 1 Hi ltac:(lia)) as [B1 B2], (idir_other i0 2 Hi ltac:(lia)) as [C1 C2].
  destruct (H _ A1 A2), (H _ B1 B2), (H _ C1 C2). unfold frac1.
  split; [auto using prod_pos|]. apply prod_le1; auto using prod_pos, prod_le1.
Qed.

Lemma parts_but p v i0 : (i0 < 4)%nat -> v i0 <= - eps -> (forall i, (i < 4)%nat -> i <> i0 -> - eps < v i) ->
  parts p v (vfrac_1vertex p i0 v true) (vfrac_1vertex p i0 v false).
Proof.
  intros Hi Hm Ho. pose proof eps_pos.
  assert (R : forall i, (i < 4)%nat -> i <> i0 -> 0 <= v i0 / (v i0 - v i)) by (intros i X Y; apply ratio_opp; left; auto).
  destruct (idir_other i0 0 Hi ltac:(lia)) as [A1 A2], (idir_other i0 1 Hi ltac:(lia)) as [B1 B2], (idir_other i0 2 Hi ltac:(lia)) as [C1 C2].
  destruct (one_vertex p v i0 Hi (R _ A1 A2) (R _ B1 B2) (R _ C1 C2)) as [E1 E2].
  eexists. split; [exact E2|]. split; [rewrite E1; ring|]. intros S.
  assert (P : forall i, (i < 4)%nat -> i <> i0 -> 0 <= v i) by (intros; apply (snap_nonneg v 4); auto).
  destruct (frac1_bounds v i0 Hi) as [F1 F2].
  { intros i X Y. split; [auto|]. apply ratio_opp1. left. auto. }
  split; [lra|]. split; [lra|]. intros D. symmetry. apply positive_but; auto. lra.
Qed.

Lemma parts_only p v i0 : (i0 < 4)%nat -> eps <= v i0 -> (forall i, (i < 4)%nat -> i <> i0 -> v i < eps) ->
  parts p v (vfrac_1vertex p i0 v false) (vfrac_1vertex p i0 v true).
Proof.
  intros Hi Hm Ho. pose proof eps_pos.
  assert (R : forall i, (i < 4)%nat -> i <> i0 -> 0 <= v i0 / (v i0 - v i)) by (intros i X Y; apply ratio_opp; right; auto).
  destruct (idir_other i0 0 Hi ltac:(lia)) as [A1 A2], (idir_other i0 1 Hi ltac:(lia)) as [B1 B2], (idir_other i0 2 Hi ltac:(lia)) as [C1 C2].
  destruct (one_vertex p v i0 Hi (R _ A1 A2) (R _ B1 B2) (R _ C1 C2)) as [E1 E2].
  eexists. split; [exact E1|]. split; [exact E2|]. intros S.
  assert (P : forall i, (i < 4)%nat -> i <> i0 -> v i <= 0) by (intros; apply (snap_nonpos v 4); auto).
  destruct (frac1_bounds v i0 Hi) as [F1 F2].
  { intros i X Y. split; [auto|]. apply ratio_opp1. right. auto. }
  split; [exact F1|]. split; [exact F2|]. intros D. symmetry. apply positive_only; auto. lra.
Qed.

(** The end of [MMG3D_vfrac], with two vertices on each side. *)
Definition two_branch (p : nat -> v3) (v : nat -> Q) (pm : Z) : outcome Q :=
    let vol := Qabs (det4pt (p 0%nat) (p 1%nat) (p 2%nat) (p 3%nat)) in
    let f := flag v in
    _ <- c_assert ((f =? 30)%Z || (f =? 45)%Z || (f =? 51)%Z) ;;
    let '(tau, ed) := config f in
    let o := inter p v in
    let neg0 := Qltb (v (nth 0 tau 0%nat)) 0 in
    _ <- c_assert ((pm <? 0)%Z || (0 <? pm)%Z) ;;
    let cfg0 := if (pm <? 0)%Z then neg0 else negb neg0 in
    let vfp := part01 p o tau ed in
    let vfm := part23 p o tau ed in
    _ <- c_assert (Qltb (Qabs (vol - (vfp + vfm))) EPSOK) ;;
    Ret (if cfg0 then vfp else vfm).

Lemma parts_two p v f :
  f = 30%Z \/ f = 45%Z \/ f = 51%Z ->
  (let w i := v (nth i (fst (config f)) 0%nat) in opposite (w 0%nat) (w 1%nat) (w 2%nat) (w 3%nat)) ->
  exists a b, two_branch p v 1 = Ret a /\ two_branch p v (-1) = Ret b /\ parts p v a b.
Proof.
  intros Hf O. destruct (two_two_cfg p v f Hf O) as (F & P1 & P2 & C0 & C1 & X). unfold two_branch.
  rewrite F. assert (Ef : ((f =? 30)%Z || (f =? 45)%Z || (f =? 51)%Z)%bool = true) by (destruct Hf as [-> | [-> | ->]]; reflexivity).
  rewrite Ef. clear Ef. cbn [c_assert bind]. cbv zeta in P1, P2, C0, C1, X, O.
  destruct (config f) as [tau ed]. cbn [fst snd] in *.
  assert (Z0 : Qabs (Qabs (det4pt (p 0%nat) (p 1%nat) (p 2%nat) (p 3%nat)) - (part01 p (inter p v) tau ed + part23 p (inter p v) tau ed)) == 0).
  { rewrite P1, P2. fold (vol6 p). match goal with |- Qabs ?x == 0 => setoid_replace x with 0 by ring end. reflexivity. }
  assert (Zl : Qltb (Qabs (Qabs (det4pt (p 0%nat) (p 1%nat) (p 2%nat) (p 3%nat)) - (part01 p (inter p v) tau ed + part23 p (inter p v) tau ed))) EPSOK = true).
  { apply Qltb_true. rewrite Z0. reflexivity. }
  change ((1 <? 0)%Z || (0 <? 1)%Z)%bool with true. change ((-1 <? 0)%Z || (0 <? -1)%Z)%bool with true.
  change (1 <? 0)%Z with false. change (-1 <? 0)%Z with true. cbn [c_assert bind].
  rewrite Zl. cbn [c_assert bind].
  eexists. eexists. split; [reflexivity|]. split; [reflexivity|].
  destruct (Qltb (v (nth 0 tau 0%nat)) 0); cbn [negb].
  - eexists. split; [exact P2|]. split; [rewrite P1; ring|]. intros S. split; [lra|]. split; [lra|].
    intros D. symmetry. exact (X D).
  - eexists. split; [exact P1|]. split; [exact P2|]. intros S. split; [exact C0|]. split; [exact C1|].
    intros D. symmetry. exact (X D).
Qed.

(** [MMG3D_vfrac] on both sides of the level-set, for all coordinates and values. *)
Lemma vfrac3_parts p v :
  exists a b, vfrac3 p v 1 = Ret a /\ vfrac3 p v (-1) = Ret b /\
    ((exists i, (i < 4)%nat /\ eps <= Qabs (v i)) -> parts p v a b) /\
    ((forall i, (i < 4)%nat -> Qabs (v i) < eps) -> a == 0 /\ b == 0).
Proof.
  pose proof eps_pos as Ep. unfold vfrac3. fold (two_branch p v 1) (two_branch p v (-1)). cbn [filter].
  assert (Ab : forall x, eps <= x \/ x <= - eps -> eps <= Qabs x).
  { intros x H. apply Qabs_case; intros; lra. }
  assert (Az : forall x, - eps < x /\ x < eps -> Qabs x < eps) by (intros x H; apply Qabs_Qlt_condition; tauto).
  destruct (cls (v 0%nat)) as [(-> & -> & -> & H0)|[(-> & -> & -> & H0)|(-> & -> & -> & H0)]];
  destruct (cls (v 1%nat)) as [(-> & -> & -> & H1)|[(-> & -> & -> & H1)|(-> & -> & -> & H1)]];
  destruct (cls (v 2%nat)) as [(-> & -> & -> & H2)|[(-> & -> & -> & H2)|(-> & -> & -> & H2)]];
  destruct (cls (v 3%nat)) as [(-> & -> & -> & H3)|[(-> & -> & -> & H3)|(-> & -> & -> & H3)]].
  all: cbn [length Nat.eqb hd negb Z.eqb Pos.eqb andb c_assert bind].
  all: fold (two_branch p v 1) (two_branch p v (-1)); fold (vol6 p).
  (* all values small *)
  1: { exists 0, 0. split; [reflexivity|]. split; [reflexivity|]. split; [|intros _; split; reflexivity].
       intros (i & Hi & X). exfalso. assert (Y : Qabs (v i) < eps) by (apply Az; destruct i as [|[|[|[|i]]]]; [| | | |lia]; assumption). lra. }
  (* two vertices on each side *)
  all: try match goal with |- exists a b, two_branch ?p ?v 1 = _ /\ _ =>
    let H := fresh in
    assert (H : exists a b, two_branch p v 1 = Ret a /\ two_branch p v (-1) = Ret b /\ parts p v a b)
      by (first [apply (parts_two p v 30); [tauto|unfold opposite; cbn [config fst nth]; tauto]
                |apply (parts_two p v 45); [tauto|unfold opposite; cbn [config fst nth]; tauto]
                |apply (parts_two p v 51); [tauto|unfold opposite; cbn [config fst nth]; tauto]]);
    destruct H as (a & b & E1 & E2 & P); exists a, b; split; [exact E1|]; split; [exact E2|]; split; [intros _; exact P|] end.
  all: try match goal with |- exists a b, Ret ?x = Ret a /\ Ret ?y = Ret b /\ _ =>
     exists x, y; split; [reflexivity|]; split; [reflexivity|]; split; [intros _|] end.
  (* a large value contradicts the smallness of all values *)
  all: try match goal with |- (forall i, _ -> Qabs (?v i) < eps) -> _ =>
    let S := fresh in intros S; exfalso;
    match goal with
    | H : eps <= ?v ?i |- _ => assert (X1 : eps <= Qabs (v i)) by (apply Ab; left; exact H); assert (X2 : Qabs (v i) < eps) by (apply S; lia); lra
    | H : ?v ?i <= - eps |- _ => assert (X1 : eps <= Qabs (v i)) by (apply Ab; right; exact H); assert (X2 : Qabs (v i) < eps) by (apply S; lia); lra
    end end.
  all: try match goal with
    | |- parts _ _ (vol6 _) 0 => apply parts_all
    | |- parts _ _ 0 (vol6 _) => apply parts_none
    | |- parts _ _ (vfrac_1vertex _ _ _ true) _ => apply parts_but; [lia|assumption|]
    | |- parts _ _ (vfrac_1vertex _ _ _ false) _ => apply parts_only; [lia|assumption|]
    end; intros i Hi; try intros Ni; destruct i as [|[|[|[|i]]]]; try lia; try (exfalso; apply Ni; reflexivity); lra.
Qed.

(** C18: the function is defined for all coordinates and values: none of its assertions fails,
    no value out of the three configurations is met. *)
Theorem parts_defined p v pm : pm = 1%Z \/ pm = (-1)%Z -> exists x, vfrac3 p v pm = Ret x.
Proof. destruct (vfrac3_parts p v) as (a & b & A & B & _). intros [-> | ->]; eauto. Qed.

(** C18: unless the level-set vanishes at the four vertices, the two parts sum to the volume. *)
Theorem parts_sum p v a b :
  vfrac3 p v 1 = Ret a -> vfrac3 p v (-1) = Ret b -> (exists i, (i < 4)%nat /\ eps <= Qabs (v i)) -> a + b == vol6 p.
Proof.
  destruct (vfrac3_parts p v) as (a' & b' & A & B & C & _). intros A' B' N.
  assert (a' = a) by congruence. assert (b' = b) by congruence. subst.
  destruct (C N) as (c & -> & -> & _). ring.
Qed.

(** C18: for snapped values each part is between zero and the volume. *)
Theorem parts_bounds p v pm x :
  pm = 1%Z \/ pm = (-1)%Z -> snapped v 4 -> vfrac3 p v pm = Ret x -> 0 <= x /\ x <= vol6 p.
Proof.
  destruct (vfrac3_parts p v) as (a & b & A & B & C & D). intros Hp S E.
  assert (V : 0 <= vol6 p) by apply Qabs_nonneg.
  destruct (Qlt_le_dec (Qabs (v 0%nat)) eps) as [L0|L0]; [destruct (Qlt_le_dec (Qabs (v 1%nat)) eps) as [L1|L1];
    [destruct (Qlt_le_dec (Qabs (v 2%nat)) eps) as [L2|L2]; [destruct (Qlt_le_dec (Qabs (v 3%nat)) eps) as [L3|L3]|]|]|].
  1: { destruct D as [Da Db]; [intros i Hi; destruct i as [|[|[|[|i]]]]; try lia; assumption|].
       destruct Hp as [-> | ->]; [assert (x = a) by congruence|assert (x = b) by congruence]; subst x; lra. }
  all: destruct C as (c & Ca & Cb & Cc); [eexists; split; [|eassumption]; lia|]; destruct (Cc S) as (C0 & C1 & _);
    assert (X1 : 0 <= vol6 p * c) by auto using prod_pos;
    assert (X2 : 0 <= vol6 p * (1 - c)) by (apply prod_pos; lra);
    assert (X3 : vol6 p * c + vol6 p * (1 - c) == vol6 p) by ring;
    destruct Hp as [-> | ->]; [assert (x = a) by congruence|assert (x = b) by congruence]; subst x; lra.
Qed.

(** C18: for snapped and distinct values the positive part is the volume of the set where the
    affine function of these vertex values is positive. *)
Theorem parts_exact p v a :
  snapped v 4 -> distinct v 4 -> vfrac3 p v 1 = Ret a -> a == vol6 p * positive3 v.
Proof.
  destruct (vfrac3_parts p v) as (a' & b & A & B & C & _). intros S D E. assert (a' = a) by congruence. subst a'.
  destruct C as (c & Ca & Cb & Cc).
  - pose proof (D 0%nat 1%nat ltac:(lia) ltac:(lia) ltac:(lia)) as N.
    destruct (S 0%nat ltac:(lia)) as [E0|E0]; [|exists 0%nat; split; [lia|exact E0]].
    destruct (S 1%nat ltac:(lia)) as [E1|E1]; [|exists 1%nat; split; [lia|exact E1]].
    exfalso. apply N. rewrite E0, E1. reflexivity.
  - destruct (Cc S) as (_ & _ & X). rewrite Ca, (X D). reflexivity.
Qed.

(** ** Triangles *)

Definition area (p : nat -> v3) : Q := area2 (p 0%nat) (p 1%nat) (p 2%nat).
Definition positive2 (v : nat -> Q) : Q :=
  pos (v 0%nat) * pos (v 0%nat) / ((v 0%nat - v 1%nat) * (v 0%nat - v 2%nat)) +
  pos (v 1%nat) * pos (v 1%nat) / ((v 1%nat - v 0%nat) * (v 1%nat - v 2%nat)) +
  pos (v 2%nat) * pos (v 2%nat) / ((v 2%nat - v 0%nat) * (v 2%nat - v 1%nat)).

Definition nx (i : nat) : nat := (if i =? 2 then 0 else i + 1)%nat.
Definition pv (i : nat) : nat := (if i =? 0 then 2 else i - 1)%nat.

Definition parts2 (p : nat -> v3) (v : nat -> Q) (a b : Q) : Prop :=
  exists c, a == area p * c /\ b == area p * (1 - c) /\
    (snapped v 3 -> 0 <= c /\ c <= 1 /\ (distinct v 3 -> c == positive2 v)).

Lemma one_vertex2 p v i0 :
  (i0 < 3)%nat -> 0 <= v i0 / (v i0 - v (nx i0)) -> 0 <= v i0 / (v i0 - v (pv i0)) ->
  let c := v i0 / (v i0 - v (nx i0)) * (v i0 / (v i0 - v (pv i0))) in
  vfrac2_1vertex p i0 v false == area p * c /\ vfrac2_1vertex p i0 v true == area p * (1 - c).
Proof.
  intros Hi H1 H2 c.
  assert (E : area2 (p i0) (cross p v i0 (nx i0)) (cross p v i0 (pv i0)) == area p * c).
  { unfold area, area2, cross, c. cbn [cx cy cz].
    set (l1 := v i0 / (v i0 - v (nx i0))) in *. set (l2 := v i0 / (v i0 - v (pv i0))) in *.
    rewrite (Qabs_scale (l1 * l2) ((cx (p 1%nat) - cx (p 0%nat)) * (cy (p 2%nat) - cy (p 0%nat)) - (cy (p 1%nat) - cy (p 0%nat)) * (cx (p 2%nat) - cx (p 0%nat)))).
    - ring.
    - clearbody l1 l2. destruct i0 as [|[|[|i0]]]; [| | |lia]; cbn [nx pv Nat.eqb Nat.add Nat.sub]; ring.
    - auto using prod_pos. }
  unfold vfrac2_1vertex. fold (nx i0) (pv i0). cbn [negb]. split; [exact E|]. rewrite E. unfold area. ring.
Qed.

Ltac diffs2 D :=
  pose proof (distinct_diff _ _ 0 1 D ltac:(lia) ltac:(lia) ltac:(lia)); pose proof (distinct_diff _ _ 0 2 D ltac:(lia) ltac:(lia) ltac:(lia));
  pose proof (distinct_diff _ _ 1 2 D ltac:(lia) ltac:(lia) ltac:(lia)); pose proof (distinct_diff _ _ 1 0 D ltac:(lia) ltac:(lia) ltac:(lia));
  pose proof (distinct_diff _ _ 2 0 D ltac:(lia) ltac:(lia) ltac:(lia)); pose proof (distinct_diff _ _ 2 1 D ltac:(lia) ltac:(lia) ltac:(lia)).

Lemma others2 i0 : (i0 < 3)%nat -> ((nx i0 < 3 /\ nx i0 <> i0) /\ (pv i0 < 3 /\ pv i0 <> i0))%nat.
Proof. intros H. destruct i0 as [|[|[|i0]]]; [| | |lia]; cbn; lia. Qed.

Lemma parts2_all p v : (forall i, (i < 3)%nat -> - eps < v i) -> parts2 p v (area p) 0.
Proof.
  intros H. exists 1. split; [ring|]. split; [ring|]. intros S. split; [lra|]. split; [lra|].
  intros D. diffs2 D. unfold positive2. rewrite !pos_plus by (apply (snap_nonneg v 3); auto).
  field; repeat split; assumption.
Qed.

Lemma parts2_none p v : (forall i, (i < 3)%nat -> v i < eps) -> parts2 p v 0 (area p).
Proof.
  intros H. exists 0. split; [ring|]. split; [ring|]. intros S. split; [lra|]. split; [lra|].
  intros D. diffs2 D. unfold positive2. rewrite !pos_minus by (apply (snap_nonpos v 3); auto).
  field; repeat split; assumption.
Qed.

Lemma parts2_but p v i0 : (i0 < 3)%nat -> v i0 <= - eps -> (forall i, (i < 3)%nat -> i <> i0 -> - eps < v i) ->
  parts2 p v (vfrac2_1vertex p i0 v true) (vfrac2_1vertex p i0 v false).
Proof.
  intros Hi Hm Ho. pose proof eps_pos.
  assert (R : forall i, (i < 3)%nat -> i <> i0 -> 0 <= v i0 / (v i0 - v i)) by (intros i X Y; apply ratio_opp; left; auto).
  destruct (others2 i0 Hi) as [[A1 A2] [B1 B2]].
  destruct (one_vertex2 p v i0 Hi (R _ A1 A2) (R _ B1 B2)) as [E1 E2].
  eexists. split; [exact E2|]. split; [rewrite E1; ring|]. intros S.
  assert (P : forall i, (i < 3)%nat -> i <> i0 -> 0 <= v i) by (intros; apply (snap_nonneg v 3); auto).
  assert (R1 : forall i, (i < 3)%nat -> i <> i0 -> v i0 / (v i0 - v i) <= 1) by (intros i X Y; apply ratio_opp1; left; auto).
  pose proof (prod_pos _ _ (R _ A1 A2) (R _ B1 B2)). pose proof (prod_le1 _ _ (R _ A1 A2) (R1 _ A1 A2) (R _ B1 B2) (R1 _ B1 B2)).
  split; [lra|]. split; [lra|]. intros D. diffs2 D. unfold positive2.
  destruct i0 as [|[|[|i0]]]; [| | |lia]; cbn [nx pv Nat.eqb Nat.add Nat.sub].
  - rewrite (pos_minus (v 0%nat)), (pos_plus (v 1%nat)), (pos_plus (v 2%nat)) by ((apply P; lia) || lra). field; repeat split; assumption.
  - rewrite (pos_minus (v 1%nat)), (pos_plus (v 0%nat)), (pos_plus (v 2%nat)) by ((apply P; lia) || lra). field; repeat split; assumption.
  - rewrite (pos_minus (v 2%nat)), (pos_plus (v 1%nat)), (pos_plus (v 0%nat)) by ((apply P; lia) || lra). field; repeat split; assumption.
Qed.

Lemma parts2_only p v i0 : (i0 < 3)%nat -> eps <= v i0 -> (forall i, (i < 3)%nat -> i <> i0 -> v i < eps) ->
  parts2 p v (vfrac2_1vertex p i0 v false) (vfrac2_1vertex p i0 v true).
Proof.
  intros Hi Hm Ho. pose proof eps_pos.
  assert (R : forall i, (i < 3)%nat -> i <> i0 -> 0 <= v i0 / (v i0 - v i)) by (intros i X Y; apply ratio_opp; right; auto).
  destruct (others2 i0 Hi) as [[A1 A2] [B1 B2]].
  destruct (one_vertex2 p v i0 Hi (R _ A1 A2) (R _ B1 B2)) as [E1 E2].
  eexists. split; [exact E1|]. split; [exact E2|]. intros S.
  assert (P : forall i, (i < 3)%nat -> i <> i0 -> v i <= 0) by (intros; apply (snap_nonpos v 3); auto).
  assert (R1 : forall i, (i < 3)%nat -> i <> i0 -> v i0 / (v i0 - v i) <= 1) by (intros i X Y; apply ratio_opp1; right; auto).
  pose proof (prod_pos _ _ (R _ A1 A2) (R _ B1 B2)). pose proof (prod_le1 _ _ (R _ A1 A2) (R1 _ A1 A2) (R _ B1 B2) (R1 _ B1 B2)).
  split; [lra|]. split; [lra|]. intros D. diffs2 D. unfold positive2.
  destruct i0 as [|[|[|i0]]]; [| | |lia]; cbn [nx pv Nat.eqb Nat.add Nat.sub].
  - rewrite (pos_plus (v 0%nat)), (pos_minus (v 1%nat)), (pos_minus (v 2%nat)) by ((apply P; lia) || lra). field; repeat split; assumption.
  - rewrite (pos_plus (v 1%nat)), (pos_minus (v 0%nat)), (pos_minus (v 2%nat)) by ((apply P; lia) || lra). field; repeat split; assumption.
  - rewrite (pos_plus (v 2%nat)), (pos_minus (v 1%nat)), (pos_minus (v 0%nat)) by ((apply P; lia) || lra). field; repeat split; assumption.
Qed.

Lemma vfrac2_parts p v :
    ((exists i, (i < 3)%nat /\ eps <= Qabs (v i)) -> parts2 p v (vfrac2 p v 1) (vfrac2 p v (-1))) /\
    ((forall i, (i < 3)%nat -> Qabs (v i) < eps) -> vfrac2 p v 1 == 0 /\ vfrac2 p v (-1) == 0).
Proof.
  pose proof eps_pos as Ep. unfold vfrac2. cbn [filter].
  assert (Ab : forall x, eps <= x \/ x <= - eps -> eps <= Qabs x).
  { intros x H. apply Qabs_case; intros; lra. }
  assert (Az : forall x, - eps < x /\ x < eps -> Qabs x < eps) by (intros x H; apply Qabs_Qlt_condition; tauto).
  destruct (cls (v 0%nat)) as [(-> & -> & -> & H0)|[(-> & -> & -> & H0)|(-> & -> & -> & H0)]];
  destruct (cls (v 1%nat)) as [(-> & -> & -> & H1)|[(-> & -> & -> & H1)|(-> & -> & -> & H1)]];
  destruct (cls (v 2%nat)) as [(-> & -> & -> & H2)|[(-> & -> & -> & H2)|(-> & -> & -> & H2)]].
  all: cbn [length Nat.eqb hd negb Z.eqb Pos.eqb andb c_assert bind].
  all: fold (area p).
  1: { split; [|intros _; split; reflexivity].
       intros (i & Hi & X). exfalso. assert (Y : Qabs (v i) < eps) by (apply Az; destruct i as [|[|[|i]]]; [| | |lia]; assumption). lra. }
  all: split; [intros _|].
  all: try match goal with |- (forall i, _ -> Qabs (?v i) < eps) -> _ =>
    let S := fresh in intros S; exfalso;
    match goal with
    | H : eps <= ?v ?i |- _ => assert (X1 : eps <= Qabs (v i)) by (apply Ab; left; exact H); assert (X2 : Qabs (v i) < eps) by (apply S; lia); lra
    | H : ?v ?i <= - eps |- _ => assert (X1 : eps <= Qabs (v i)) by (apply Ab; right; exact H); assert (X2 : Qabs (v i) < eps) by (apply S; lia); lra
    end end.
  all: try match goal with
    | |- parts2 _ _ (area _) 0 => apply parts2_all
    | |- parts2 _ _ 0 (area _) => apply parts2_none
    | |- parts2 _ _ (vfrac2_1vertex _ _ _ true) _ => apply parts2_but; [lia|assumption|]
    | |- parts2 _ _ (vfrac2_1vertex _ _ _ false) _ => apply parts2_only; [lia|assumption|]
    end; intros i Hi; try intros Ni; destruct i as [|[|[|i]]]; try lia; try (exfalso; apply Ni; reflexivity); lra.
Qed.

(** C18 for triangles of the plane. *)
Theorem triangle_sum p v : (exists i, (i < 3)%nat /\ eps <= Qabs (v i)) -> vfrac2 p v 1 + vfrac2 p v (-1) == area p.
Proof. intros N. destruct (proj1 (vfrac2_parts p v) N) as (c & -> & -> & _). ring. Qed.

Theorem triangle_bounds p v pm : pm = 1%Z \/ pm = (-1)%Z -> snapped v 3 -> 0 <= vfrac2 p v pm /\ vfrac2 p v pm <= area p.
Proof.
  destruct (vfrac2_parts p v) as (C & D). intros Hp S.
  assert (V : 0 <= area p) by (apply prod_pos; [discriminate|apply Qabs_nonneg]).
  destruct (Qlt_le_dec (Qabs (v 0%nat)) eps) as [L0|L0]; [destruct (Qlt_le_dec (Qabs (v 1%nat)) eps) as [L1|L1];
    [destruct (Qlt_le_dec (Qabs (v 2%nat)) eps) as [L2|L2]|]|].
  1: { destruct D as [Da Db]; [intros i Hi; destruct i as [|[|[|i]]]; try lia; assumption|].
       destruct Hp as [-> | ->]; lra. }
  all: destruct C as (c & Ca & Cb & Cc); [eexists; split; [|eassumption]; lia|]; destruct (Cc S) as (C0 & C1 & _);
    assert (X1 : 0 <= area p * c) by auto using prod_pos;
    assert (X2 : 0 <= area p * (1 - c)) by (apply prod_pos; lra);
    assert (X3 : area p * c + area p * (1 - c) == area p) by ring;
    destruct Hp as [-> | ->]; lra.
Qed.

Theorem triangle_exact p v : snapped v 3 -> distinct v 3 -> vfrac2 p v 1 == area p * positive2 v.
Proof.
  destruct (vfrac2_parts p v) as (C & _). intros S D.
  destruct C as (c & Ca & Cb & Cc).
  - pose proof (D 0%nat 1%nat ltac:(lia) ltac:(lia) ltac:(lia)) as N.
    destruct (S 0%nat ltac:(lia)) as [E0|E0]; [|exists 0%nat; split; [lia|exact E0]].
    destruct (S 1%nat ltac:(lia)) as [E1|E1]; [|exists 1%nat; split; [lia|exact E1]].
    exfalso. apply N. rewrite E0, E1. reflexivity.
  - destruct (Cc S) as (_ & _ & X). rewrite Ca, (X D). reflexivity.
Qed.

(** ** What fails *)

Definition ofl {A} (d : A) (l : list A) (i : nat) : A := nth i l d.
Definition ref_tetra : nat -> v3 := ofl (mkV 0 0 0) [mkV 0 0 0; mkV 1 0 0; mkV 0 1 0; mkV 0 0 1].

(** Without snapping: values below the threshold but of the sign of the single vertex put the
    intersections outside the edges, and the part of the other side is negative. *)
Theorem small_values_refuted :
  exists p v x, vfrac3 p v 1 = Ret x /\ x < 0 /\ 0 < vol6 p.
Proof.
  exists ref_tetra, (ofl 0 [- eps; - (9 # 10) * eps; - (9 # 10) * eps; eps]).
  destruct (vfrac3 ref_tetra (ofl 0 [- eps; - (9 # 10) * eps; - (9 # 10) * eps; eps]) 1) as [x|] eqn:E; [|vm_compute in E; discriminate].
  exists x. split; [reflexivity|]. split; [|reflexivity]. vm_compute in E. injection E as <-. reflexivity.
Qed.

(** All values below the threshold: both parts are zero although the volume is not. *)
Theorem all_small_refuted :
  exists p v, (forall i, (i < 4)%nat -> 0 < v i) /\ vfrac3 p v 1 = Ret 0 /\ vfrac3 p v (-1) = Ret 0 /\ vol6 p == 1.
Proof.
  exists ref_tetra, (fun _ => (1 # 2) * eps). split; [reflexivity|]. split; [reflexivity|]. split; reflexivity.
Qed.

(** Surfaces ([MMG5_rmc] of Mmgs calls the same function): the area is that of the projection
    on the plane of the first two coordinates, here zero for a triangle of area 1/2. *)
Theorem surface_refuted :
  exists p : nat -> v3,
    (exists d, d = mkV 1 0 0 /\ det3pt1vec (p 0%nat) (p 1%nat) (p 2%nat) d == 1) /\
    forall v pm, vfrac2 p v pm == 0.
Proof.
  exists (ofl (mkV 0 0 0) [mkV 0 0 0; mkV 0 1 0; mkV 0 0 1]). split; [eexists; split; reflexivity|].
  intros v pm. set (p := ofl (mkV 0 0 0) [mkV 0 0 0; mkV 0 1 0; mkV 0 0 1]).
  assert (X : forall a b c, cx a == 0 -> cx b == 0 -> cx c == 0 -> area2 a b c == 0).
  { intros a b c A B C. unfold area2. rewrite A, B, C. 
    match goal with |- _ * Qabs ?x == 0 => setoid_replace x with 0 by ring end. reflexivity. }
  assert (Y : forall i, cx (p i) == 0) by (intros i; destruct i as [|[|[|[|i]]]]; reflexivity).
  assert (Z1 : forall i j, cx (cross p v i j) == 0) by (intros i j; unfold cross; cbn [cx]; rewrite !Y; ring).
  assert (V : forall i b, vfrac2_1vertex p i v b == 0).
  { intros i b. unfold vfrac2_1vertex. destruct (negb b); [apply X; auto|]. rewrite !X by auto. reflexivity. }
  unfold vfrac2. repeat match goal with |- (if ?b then _ else _) == 0 => destruct b end; try reflexivity; try apply V; apply X; auto.
Qed.

(** Concrete cases: two vertices on each side, one vertex, a value zero. *)
Definition got (o : outcome Q) (x : Q) : bool := match o with Ret y => Qeq_bool y x | Stuck => false end.
Definition v22 : nat -> Q := ofl 0 [1; 2; -1; -3].
Example v22_meets : snapped v22 4 /\ distinct v22 4.
Proof.
  split.
  - intros i Hi. right. destruct i as [|[|[|[|i]]]]; try lia; discriminate.
  - intros i j Hi Hj N X. destruct i as [|[|[|[|i]]]]; try lia; destruct j as [|[|[|[|j]]]]; try lia; try (apply N; reflexivity); discriminate X.
Qed.
Example v22_parts : got (vfrac3 ref_tetra v22 1) (49 # 120) = true /\ got (vfrac3 ref_tetra v22 (-1)) (71 # 120) = true /\
  Qeq_bool (positive3 v22) (49 # 120) = true.
Proof. vm_compute. auto. Qed.
Example zero_parts : got (vfrac3 ref_tetra (ofl 0 [0; 2; -1; 3]) (-1)) (1 # 12) = true /\ snapped (ofl 0 [0; 2; -1; 3]) 4.
Proof.
  split; [vm_compute; reflexivity|]. intros i Hi. destruct i as [|[|[|[|i]]]]; try lia; [left; reflexivity|right; discriminate..].
Qed.
Example tria_parts : Qeq_bool (vfrac2 ref_tetra (ofl 0 [1; -2; 0]) 1) (1 # 6) = true /\ snapped (ofl 0 [1; -2; 0]) 3.
Proof.
  split; [vm_compute; reflexivity|]. intros i Hi. destruct i as [|[|[|i]]]; try lia; [right; discriminate|right; discriminate|left; reflexivity].
Qed.

Print Assumptions parts_defined.
Print Assumptions parts_sum.
Print Assumptions parts_bounds.
Print Assumptions parts_exact.
Print Assumptions triangle_sum.
Print Assumptions triangle_bounds.
Print Assumptions triangle_exact.
Print Assumptions small_values_refuted.
Print Assumptions all_small_refuted.
Print Assumptions surface_refuted.
