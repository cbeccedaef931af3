(** Volumes of the sub-tetrahedra: each volume is an affine function of the
    position of every new vertex, hence determined by the corners of the cube
    of positions, which are checked by computation over the integers. *)
From Coq Require Import Reals ZArith List Lia Lra Bool Arith.
From Verif Require Import CBase SplitModel SplitProofs KerModel.
Import ListNotations.
Open Scope R_scope.

(** ** Coordinates in the parent *)

Definition lerp (t : R) (p q : vec3) : vec3 :=
  V3 ((1 - t) * vx p + t * vx q) ((1 - t) * vy p + t * vy q) ((1 - t) * vz p + t * vz q).

(** Point of coordinates [q] in the frame of the parent. *)
Definition inframe (p0 p1 p2 p3 q : vec3) : vec3 :=
  V3 (vx p0 + vx q * (vx p1 - vx p0) + vy q * (vx p2 - vx p0) + vz q * (vx p3 - vx p0))
     (vy p0 + vx q * (vy p1 - vy p0) + vy q * (vy p2 - vy p0) + vz q * (vy p3 - vy p0))
     (vz p0 + vx q * (vz p1 - vz p0) + vy q * (vz p2 - vz p0) + vz q * (vz p3 - vz p0)).

Lemma det4pt_frame p0 p1 p2 p3 a b c d :
  det4pt (inframe p0 p1 p2 p3 a) (inframe p0 p1 p2 p3 b) (inframe p0 p1 p2 p3 c) (inframe p0 p1 p2 p3 d) =
  det4pt a b c d * det4pt p0 p1 p2 p3.
Proof. unfold det4pt, det3pt1vec, inframe; cbn [vx vy vz]. ring. Qed.

Lemma inframe_lerp p0 p1 p2 p3 t a b :
  inframe p0 p1 p2 p3 (lerp t a b) = lerp t (inframe p0 p1 p2 p3 a) (inframe p0 p1 p2 p3 b).
Proof. unfold inframe, lerp; cbn [vx vy vz]. f_equal; ring. Qed.

Lemma det_lerp0 t a b q1 q2 q3 :
  det4pt (lerp t a b) q1 q2 q3 = (1 - t) * det4pt (lerp 0 a b) q1 q2 q3 + t * det4pt (lerp 1 a b) q1 q2 q3.
Proof. unfold det4pt, det3pt1vec, lerp; cbn [vx vy vz]. ring. Qed.
Lemma det_lerp1 t a b q0 q2 q3 :
  det4pt q0 (lerp t a b) q2 q3 = (1 - t) * det4pt q0 (lerp 0 a b) q2 q3 + t * det4pt q0 (lerp 1 a b) q2 q3.
Proof. unfold det4pt, det3pt1vec, lerp; cbn [vx vy vz]. ring. Qed.
Lemma det_lerp2 t a b q0 q1 q3 :
  det4pt q0 q1 (lerp t a b) q3 = (1 - t) * det4pt q0 q1 (lerp 0 a b) q3 + t * det4pt q0 q1 (lerp 1 a b) q3.
Proof. unfold det4pt, det3pt1vec, lerp; cbn [vx vy vz]. ring. Qed.
Lemma det_lerp3 t a b q0 q1 q2 :
  det4pt q0 q1 q2 (lerp t a b) = (1 - t) * det4pt q0 q1 q2 (lerp 0 a b) + t * det4pt q0 q1 q2 (lerp 1 a b).
Proof. unfold det4pt, det3pt1vec, lerp; cbn [vx vy vz]. ring. Qed.

(** ** Reference coordinates of the labels *)

Definition vtx (i : nat) : vec3 :=
  match i with
  | S O => V3 1 0 0 | S (S O) => V3 0 1 0 | S (S (S O)) => V3 0 0 1 | _ => V3 0 0 0
  end.
Definition lpos (t : nat -> R) (l : nat) : vec3 :=
  if (l <? 4)%nat then vtx l else lerp (t (l - 4)%nat) (vtx (fst (iare (l - 4)))) (vtx (snd (iare (l - 4)))).
Definition rvol (t : nat -> R) (s : list nat) : R :=
  det4pt (lpos t (nth 0 s 10%nat)) (lpos t (nth 1 s 10%nat)) (lpos t (nth 2 s 10%nat)) (lpos t (nth 3 s 10%nat)).

Definition tset (t : nat -> R) (e : nat) (x : R) : nat -> R := fun k => if (k =? e)%nat then x else t k.

Lemma lpos_set_other t e x l : l <> (4 + e)%nat -> lpos (tset t e x) l = lpos t l.
Proof.
  intros H. unfold lpos, tset. destruct (Nat.ltb_spec l 4); [reflexivity|].
  destruct (Nat.eqb_spec (l - 4) e); [lia | reflexivity].
Qed.
Lemma lpos_set_same t e x : lpos (tset t e x) (4 + e) = lerp x (vtx (fst (iare e))) (vtx (snd (iare e))).
Proof.
  unfold lpos, tset. destruct (Nat.ltb_spec (4 + e) 4); [lia|].
  replace (4 + e - 4)%nat with e by lia. rewrite Nat.eqb_refl. reflexivity.
Qed.
Lemma lpos_same t e : lpos t (4 + e) = lerp (t e) (vtx (fst (iare e))) (vtx (snd (iare e))).
Proof.
  unfold lpos. destruct (Nat.ltb_spec (4 + e) 4); [lia|].
  replace (4 + e - 4)%nat with e by lia. reflexivity.
Qed.

Definition aff (e : nat) (F : (nat -> R) -> R) : Prop :=
  forall t, F t = (1 - t e) * F (tset t e 0) + t e * F (tset t e 1).

Lemma rvol_aff a b c d e : NoDup [a; b; c; d] -> aff e (fun t => rvol t [a; b; c; d]).
Proof.
  intros N t. unfold rvol. cbn [nth].
  inversion N as [|? ? N1 N2]; subst. inversion N2 as [|? ? N3 N4]; subst.
  inversion N4 as [|? ? N5 N6]; subst. cbn [In] in *.
  destruct (Nat.eq_dec a (4 + e)) as [Ha|Ha].
  { subst a. rewrite !lpos_set_same, lpos_same, !(lpos_set_other t e) by (intros ->; tauto). apply det_lerp0. }
  destruct (Nat.eq_dec b (4 + e)) as [Hb|Hb].
  { subst b. rewrite !lpos_set_same, lpos_same, !(lpos_set_other t e) by (intros ->; tauto). apply det_lerp1. }
  destruct (Nat.eq_dec c (4 + e)) as [Hc|Hc].
  { subst c. rewrite !lpos_set_same, lpos_same, !(lpos_set_other t e) by (intros ->; tauto). apply det_lerp2. }
  destruct (Nat.eq_dec d (4 + e)) as [Hd|Hd].
  { subst d. rewrite !lpos_set_same, lpos_same, !(lpos_set_other t e) by (intros ->; tauto). apply det_lerp3. }
  rewrite !lpos_set_other by assumption. ring.
Qed.

(** ** Corners *)

Definition bit (c : list bool) (k : nat) : R := if nth k c false then 1 else 0.

Definition vtxZ (i : nat) : Z * Z * Z :=
  match i with
  | S O => (1, 0, 0) | S (S O) => (0, 1, 0) | S (S (S O)) => (0, 0, 1) | _ => (0, 0, 0)
  end%Z.
Definition cposZ (c : list bool) (l : nat) : Z * Z * Z :=
  if (l <? 4)%nat then vtxZ l
  else if nth (l - 4) c false then vtxZ (snd (iare (l - 4))) else vtxZ (fst (iare (l - 4))).
Definition detZ (p0 p1 p2 p3 : Z * Z * Z) : Z := (
  let '(x0, y0, z0) := p0 in let '(x1, y1, z1) := p1 in
  let '(x2, y2, z2) := p2 in let '(x3, y3, z3) := p3 in
  let m00 := x1 - x0 in let m01 := x2 - x0 in
  let m10 := y1 - y0 in let m11 := y2 - y0 in
  let m20 := z1 - z0 in let m21 := z2 - z0 in
  (x3 - x0) * (m10 * m21 - m20 * m11) - (y3 - y0) * (m00 * m21 - m20 * m01) + (z3 - z0) * (m00 * m11 - m10 * m01))%Z.
Definition rvolZ (c : list bool) (s : list nat) : Z :=
  detZ (cposZ c (nth 0 s 10%nat)) (cposZ c (nth 1 s 10%nat)) (cposZ c (nth 2 s 10%nat)) (cposZ c (nth 3 s 10%nat)).

Definition ofZ (p : Z * Z * Z) : vec3 := let '(x, y, z) := p in V3 (IZR x) (IZR y) (IZR z).
Lemma vtx_ofZ i : vtx i = ofZ (vtxZ i).
Proof. destruct i as [|[|[|[|i]]]]; reflexivity. Qed.
Lemma det_ofZ a b c d : det4pt (ofZ a) (ofZ b) (ofZ c) (ofZ d) = IZR (detZ a b c d).
Proof.
  destruct a as [[? ?] ?], b as [[? ?] ?], c as [[? ?] ?], d as [[? ?] ?].
  unfold det4pt, det3pt1vec, ofZ, detZ; cbn [vx vy vz].
  repeat (rewrite ?plus_IZR, ?minus_IZR, ?mult_IZR). ring.
Qed.
Lemma lerp_0 a b : lerp 0 a b = a.
Proof. destruct a as [a1 a2 a3], b as [b1 b2 b3]. unfold lerp; cbn [vx vy vz]. f_equal; ring. Qed.
Lemma lerp_1 a b : lerp 1 a b = b.
Proof. destruct a as [a1 a2 a3], b as [b1 b2 b3]. unfold lerp; cbn [vx vy vz]. f_equal; ring. Qed.

Lemma lpos_corner t c l :
  (forall k, (k < 6)%nat -> t k = bit c k) -> (l < 10)%nat -> lpos t l = ofZ (cposZ c l).
Proof.
  intros H Hl. unfold lpos, cposZ. destruct (Nat.ltb_spec l 4); [apply vtx_ofZ|].
  rewrite H by lia. unfold bit. destruct (nth (l - 4) c false);
    rewrite ?lerp_0, ?lerp_1; apply vtx_ofZ.
Qed.

Lemma rvol_corner t c s :
  (forall k, (k < 6)%nat -> t k = bit c k) -> length s = 4%nat -> Forall (fun l => (l < 10)%nat) s ->
  rvol t s = IZR (rvolZ c s).
Proof.
  intros H Hl Hs. apply len4 in Hl. destruct Hl as (a & b & d & e & ->).
  inversion Hs as [|? ? Ha Hs1]; subst. inversion Hs1 as [|? ? Hb Hs2]; subst.
  inversion Hs2 as [|? ? Hc Hs3]; subst. inversion Hs3 as [|? ? Hd Hs4]; subst.
  unfold rvol, rvolZ. cbn [nth]. rewrite !(lpos_corner t c) by assumption. apply det_ofZ.
Qed.

(** Functions that are affine in each of the six positions. *)
Definition aff6 (F : (nat -> R) -> R) : Prop := forall e, (e < 6)%nat -> aff e F.

Definition isbit (x : R) : Prop := x = 0 \/ x = 1.
Lemma corner_bits t : (forall k, (k < 6)%nat -> isbit (t k)) ->
  exists c, length c = 6%nat /\ forall k, (k < 6)%nat -> t k = bit c k.
Proof.
  intros H.
  assert (G : forall n, (n <= 6)%nat -> exists c, length c = n /\ forall k, (k < n)%nat -> t k = bit c k).
  { induction n as [|n IH]; intros Hn.
    - exists []. split; [reflexivity | intros; lia].
    - destruct IH as [c [Hl Hc]]; [lia|]. destruct (H n) as [E|E]; [lia| |].
      + exists (c ++ [false]). split; [rewrite app_length; cbn; lia|]. intros k Hk. unfold bit.
        destruct (Nat.eq_dec k n) as [->|]; [rewrite app_nth2 by lia; rewrite Hl, Nat.sub_diag; exact E|].
        rewrite app_nth1 by lia. apply Hc. lia.
      + exists (c ++ [true]). split; [rewrite app_length; cbn; lia|]. intros k Hk. unfold bit.
        destruct (Nat.eq_dec k n) as [->|]; [rewrite app_nth2 by lia; rewrite Hl, Nat.sub_diag; exact E|].
        rewrite app_nth1 by lia. apply Hc. lia. }
  apply (G 6%nat). lia.
Qed.

Lemma tset_bits t n x : isbit x -> (forall k, (k < n)%nat -> isbit (t k)) ->
  forall k, (k < S n)%nat -> isbit (tset t n x k).
Proof.
  intros Hx H k Hk. unfold tset. destruct (Nat.eqb_spec k n); [exact Hx | apply H; lia].
Qed.

Lemma const_from_corners F v :
  aff6 F -> (forall t, (forall k, (k < 6)%nat -> isbit (t k)) -> F t = v) -> forall t, F t = v.
Proof.
  intros Ha Hc.
  assert (G : forall m n, (n + m = 6)%nat -> forall t, (forall k, (k < n)%nat -> isbit (t k)) -> F t = v).
  { induction m as [|m IH]; intros n Hn t Ht.
    - apply Hc. intros k Hk. apply Ht. lia.
    - rewrite (Ha n) by lia.
      rewrite (IH (S n)) by first [lia | (apply tset_bits; [left; reflexivity | exact Ht])].
      rewrite (IH (S n)) by first [lia | (apply tset_bits; [right; reflexivity | exact Ht])]. ring. }
  intros t. apply (G 6%nat 0%nat); [reflexivity | intros; lia].
Qed.

Lemma nonneg_from_corners F :
  aff6 F -> (forall t, (forall k, (k < 6)%nat -> isbit (t k)) -> 0 <= F t) ->
  forall t, (forall k, (k < 6)%nat -> 0 <= t k <= 1) -> 0 <= F t.
Proof.
  intros Ha Hc.
  assert (G : forall m n, (n + m = 6)%nat -> forall t, (forall k, (k < n)%nat -> isbit (t k)) ->
              (forall k, (k < 6)%nat -> 0 <= t k <= 1) -> 0 <= F t).
  { induction m as [|m IH]; intros n Hn t Ht Hr.
    - apply Hc. intros k Hk. apply Ht. lia.
    - assert (Hb : (n < 6)%nat) by lia. rewrite (Ha n) by exact Hb. pose proof (Hr n Hb).
      assert (H0 : 0 <= F (tset t n 0)).
      { apply (IH (S n)); [lia | apply tset_bits; [left; reflexivity | exact Ht] |].
        intros k Hk. unfold tset. destruct (k =? n)%nat; [lra | auto]. }
      assert (H1 : 0 <= F (tset t n 1)).
      { apply (IH (S n)); [lia | apply tset_bits; [right; reflexivity | exact Ht] |].
        intros k Hk. unfold tset. destruct (k =? n)%nat; [lra | auto]. }
      nra. }
  intros t Hr. apply (G 6%nat 0%nat); [reflexivity | intros; lia | exact Hr].
Qed.

Lemma pos_from_corners F c :
  aff6 F -> (forall t, (forall k, (k < 6)%nat -> isbit (t k)) -> 0 <= F t) ->
  (forall t, (forall k, (k < 6)%nat -> t k = bit c k) -> 0 < F t) ->
  forall t, (forall k, (k < 6)%nat -> 0 < t k < 1) -> 0 < F t.
Proof.
  intros Ha Hc Hp.
  assert (G : forall m n, (n + m = 6)%nat -> forall t, (forall k, (k < n)%nat -> t k = bit c k) ->
              (forall k, (n <= k < 6)%nat -> 0 < t k < 1) -> 0 < F t).
  { induction m as [|m IH]; intros n Hn t Ht Hr.
    - apply Hp. intros k Hk. apply Ht. lia.
    - assert (Hb : (n < 6)%nat) by lia. rewrite (Ha n) by exact Hb.
      assert (Hrn : 0 < t n < 1) by (apply Hr; lia).
      assert (Hw : forall k, (k < 6)%nat -> 0 <= t k <= 1).
      { intros k Hk. destruct (Nat.lt_ge_cases k n) as [L|L].
        - rewrite Ht by exact L. unfold bit. destruct (nth k c false); lra.
        - assert (0 < t k < 1) by (apply Hr; lia). lra. }
      assert (N : forall x, 0 <= x <= 1 -> 0 <= F (tset t n x)).
      { intros x Hx. apply nonneg_from_corners; [exact Ha | exact Hc |].
        intros k Hk. unfold tset. destruct (k =? n)%nat; [lra | auto]. }
      assert (P : 0 < F (tset t n (bit c n))).
      { apply (IH (S n)); [lia | |].
        - intros k Hk. unfold tset. destruct (Nat.eqb_spec k n); [subst; reflexivity | apply Ht; lia].
        - intros k Hk. unfold tset. destruct (Nat.eqb_spec k n); [lia | apply Hr; lia]. }
      pose proof (N 0 ltac:(lra)). pose proof (N 1 ltac:(lra)).
      unfold bit in P. destruct (nth n c false); nra. }
  intros t Hr. apply (G 6%nat 0%nat); [reflexivity | intros; lia | intros k Hk; apply Hr; lia].
Qed.

(** ** The computed check *)

Fixpoint nodupb (l : list nat) : bool :=
  match l with [] => true | x :: r => negb (inl x r) && nodupb r end.
Lemma inl_In x l : inl x l = true <-> In x l.
Proof.
  unfold inl. rewrite existsb_exists. split.
  - intros [y [Hy E]]. apply Nat.eqb_eq in E. subst. exact Hy.
  - intros H. exists x. split; [exact H | apply Nat.eqb_refl].
Qed.
Lemma nodupb_ok l : nodupb l = true -> NoDup l.
Proof.
  induction l as [|x l IH]; cbn; intros H; [constructor|].
  apply andb_prop in H. destruct H as [H1 H2]. constructor; [|auto].
  intros Hin. apply inl_In in Hin. rewrite Hin in H1. discriminate.
Qed.

Definition sumZ (l : list Z) : Z := fold_right Z.add 0%Z l.

Definition chk_vol (pos : list bool) (T : list (list bool)) : bool :=
  on_ret (ssplit pos T) (fun L =>
    forallb (fun s => (length (sv s) =? 4)%nat && forallb (fun l => (l <? 10)%nat) (sv s) && nodupb (sv s) &&
                      forallb (fun c => (0 <=? rvolZ c (sv s))%Z) (bools 6) &&
                      existsb (fun c => (0 <? rvolZ c (sv s))%Z) (bools 6)) L &&
    forallb (fun c => (sumZ (map (fun s => rvolZ c (sv s)) L) =? 1)%Z) (bools 6)).

Lemma vol_all : all_cases chk_vol = true.
Proof. vm_compute. reflexivity. Qed.

Definition sumR (l : list R) : R := fold_right Rplus 0 l.

Lemma sumR_IZR A (f : A -> R) (g : A -> Z) (l : list A) :
  (forall x, In x l -> f x = IZR (g x)) -> sumR (map f l) = IZR (sumZ (map g l)).
Proof.
  induction l as [|x l IH]; intros H; [reflexivity|].
  cbn [map sumR sumZ fold_right]. fold (sumR (map f l)). fold (sumZ (map g l)).
  rewrite plus_IZR, <- IH, H; [reflexivity | left; reflexivity | intros; apply H; right; assumption].
Qed.

Lemma sumR_aff A (f : A -> (nat -> R) -> R) e (l : list A) :
  (forall x, In x l -> aff e (f x)) -> aff e (fun t => sumR (map (fun x => f x t) l)).
Proof.
  intros H t. induction l as [|x l IH]; [cbn; ring|].
  cbn [map sumR fold_right]. fold (sumR (map (fun x => f x t) l)).
  fold (sumR (map (fun x => f x (tset t e 0)) l)). fold (sumR (map (fun x => f x (tset t e 1)) l)).
  rewrite IH by (intros; apply H; right; assumption).
  rewrite (H x (or_introl eq_refl) t) at 1. ring.
Qed.

Lemma vol_sym pos T L :
  chk_vol pos T = true -> ssplit pos T = Ret L ->
  (forall t, sumR (map (fun s => rvol t (sv s)) L) = 1) /\
  (forall s t, In s L -> (forall k, (k < 6)%nat -> 0 < t k < 1) -> 0 < rvol t (sv s)) /\
  (forall s, In s L -> length (sv s) = 4%nat /\ Forall (fun l => (l < 10)%nat) (sv s)).
Proof.
  unfold chk_vol. intros H E. rewrite E in H. cbn [on_ret] in H.
  apply andb_prop in H. destruct H as [H Hsum]. rewrite forallb_forall in H.
  assert (S : forall s, In s L -> length (sv s) = 4%nat /\ Forall (fun l => (l < 10)%nat) (sv s) /\ NoDup (sv s) /\
     (forall c, In c (bools 6) -> (0 <= rvolZ c (sv s))%Z) /\ (exists c, In c (bools 6) /\ (0 < rvolZ c (sv s))%Z)).
  { intros s Hs. specialize (H s Hs). cbv beta in H. rewrite !andb_true_iff in H.
    destruct H as [[[[H1 H2] H3] H4] H5].
    apply Nat.eqb_eq in H1. apply nodupb_ok in H3. rewrite forallb_forall in H2, H4. rewrite existsb_exists in H5.
    split; [exact H1|]. split.
    { apply Forall_forall. intros x Hx. apply Nat.ltb_lt. auto. }
    split; [exact H3|]. split.
    - intros c Hc. apply Z.leb_le. auto.
    - destruct H5 as [c [Hc Hp]]. exists c. split; [exact Hc | apply Z.ltb_lt; exact Hp]. }
  assert (A : forall s, In s L -> aff6 (fun t => rvol t (sv s))).
  { intros s Hs e He. destruct (S s Hs) as (Hl & _ & Hn & _). apply len4 in Hl.
    destruct Hl as (a & b & c & d & Hl). rewrite Hl in *. apply rvol_aff. exact Hn. }
  split; [|split].
  - apply const_from_corners.
    + intros e He. apply sumR_aff. intros s Hs. apply A; assumption.
    + intros t Ht. destruct (corner_bits t Ht) as [c [Hc Hb]].
      rewrite (sumR_IZR _ _ (fun s => rvolZ c (sv s))).
      2: { intros s Hs. destruct (S s Hs) as (Hl & Hf & _). apply rvol_corner; assumption. }
      rewrite forallb_forall in Hsum. specialize (Hsum c (bools_all 6 c Hc)). apply Z.eqb_eq in Hsum.
      rewrite Hsum. reflexivity.
  - intros s t Hs Ht. destruct (S s Hs) as (Hl & Hf & _ & Hn & [c0 [Hc0 Hp]]).
    apply (pos_from_corners (fun t => rvol t (sv s)) c0); [apply A; exact Hs | | | exact Ht].
    + intros t' Ht'. destruct (corner_bits t' Ht') as [c [Hc Hb]].
      rewrite (rvol_corner t' c) by assumption. apply IZR_le. apply Hn. apply bools_all. exact Hc.
    + intros t' Ht'. rewrite (rvol_corner t' c0) by assumption. apply IZR_lt. exact Hp.
  - intros s Hs. destruct (S s Hs) as (Hl & Hf & _). auto.
Qed.

(** ** The simulations *)

(** [MMG5_orvol] (tools.c:952-956) of four vertices. *)
Definition orvol (c : Z -> vec3) (v : list Z) : R :=
  det4pt (c (nth 0 v 0%Z)) (c (nth 1 v 0%Z)) (c (nth 2 v 0%Z)) (c (nth 3 v 0%Z)).

(** [MMG5_EPSOK] (mmgcommon_private.h:97). *)
Definition EPSOK : R := / 10 ^ 15.

(** [MMG3D_split1_sim], [MMG3D_split2sf_sim], ..., [MMG3D_split6_sim]
    (split_3d.c:94, 1103, 1427, 1636, 1921, 2522, 3337, 3685, 4111, 4414): the volumes of the parent and of the tested
    tetrahedra are compared with [EPSOK]. *)
Definition sim (c : Z -> vec3) (vx v : list Z) : outcome bool :=
  if ltb (orvol c v) EPSOK then Ret false
  else bind (tested vx v) (fun l => Ret (forallb (fun s => negb (ltb (orvol c s) EPSOK)) l)).
