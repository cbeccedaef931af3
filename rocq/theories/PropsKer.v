(** C26: small matrix kernels over the reals. *)
From Coq Require Import ZArith Reals Lra List Psatz.
From Verif Require Import CBase KerModel.
Open Scope R_scope.

(** ** Matrices as functions, products, inverses *)
Definition mat := nat -> nat -> R.
Definition mul3 (A B : mat) : mat := fun i j => A i 0%nat * B 0%nat j + A i 1%nat * B 1%nat j + A i 2%nat * B 2%nat j.
Definition tr (A : mat) : mat := fun i j => A j i.
Definition delta (i j : nat) : R := if Nat.eqb i j then 1 else 0.
Definition eq3 (A B : mat) : Prop := forall i j, (i < 3)%nat -> (j < 3)%nat -> A i j = B i j.
Definition inverse3 (A B : mat) : Prop := eq3 (mul3 A B) delta /\ eq3 (mul3 B A) delta.
Definition app3 (A : mat) (v : nat -> R) : nat -> R := fun i => A i 0%nat * v 0%nat + A i 1%nat * v 1%nat + A i 2%nat * v 2%nat.

(** Entries of the C arrays. *)
Definition of9 (m : mat3) : mat := fun i j =>
  match i, j with
  | 0, 0 => g0 m | 0, 1 => g1 m | 0, _ => g2 m
  | 1, 0 => g3 m | 1, 1 => g4 m | 1, _ => g5 m
  | _, 0 => g6 m | _, 1 => g7 m | _, _ => g8 m end%nat.
Definition of6 (m : sym3) : mat := fun i j =>
  match Nat.min i j, Nat.max i j with
  | 0, 0 => s0 m | 0, 1 => s1 m | 0, _ => s2 m
  | 1, 1 => s3 m | 1, _ => s4 m | _, _ => s5 m end%nat.
Definition of3 (v : vec3) : nat -> R := fun i => match i with 0 => vx v | 1 => vy v | _ => vz v end%nat.

Lemma eq3_all (A B : mat) :
  A 0%nat 0%nat = B 0%nat 0%nat -> A 0%nat 1%nat = B 0%nat 1%nat -> A 0%nat 2%nat = B 0%nat 2%nat ->
  A 1%nat 0%nat = B 1%nat 0%nat -> A 1%nat 1%nat = B 1%nat 1%nat -> A 1%nat 2%nat = B 1%nat 2%nat ->
  A 2%nat 0%nat = B 2%nat 0%nat -> A 2%nat 1%nat = B 2%nat 1%nat -> A 2%nat 2%nat = B 2%nat 2%nat -> eq3 A B.
Proof.
  intros. intros i j Hi Hj.
  destruct i as [|[|[|]]]; [| | |lia]; (destruct j as [|[|[|]]]; [| | |lia]); assumption.
Qed.

Ltac all9 := apply eq3_all; cbv [mul3 tr of6 of9 delta Nat.min Nat.max Nat.eqb g0 g1 g2 g3 g4 g5 g6 g7 g8 s0 s1 s2 s3 s4 s5].

Lemma EPS_pos : 0 < EPS. Proof. unfold EPS. apply Rinv_0_lt_compat. apply pow_lt. lra. Qed.
Lemma EPSD_pos : 0 < EPSD. Proof. unfold EPSD. apply Rinv_0_lt_compat. apply pow_lt. lra. Qed.
Lemma EPSD2_pos : 0 < EPSD2. Proof. unfold EPSD2. apply Rinv_0_lt_compat. apply pow_lt. lra. Qed.
Lemma EPS_val : EPS = / 1000000. Proof. unfold EPS. f_equal. lra. Qed.

Lemma ltb_t x y : ltb x y = true -> x < y.
Proof. unfold ltb. destruct (Rlt_dec x y); [auto|discriminate]. Qed.
Lemma ltb_f x y : ltb x y = false -> y <= x.
Proof. unfold ltb. destruct (Rlt_dec x y); [discriminate|lra]. Qed.
Lemma ltb_tt x y : x < y -> ltb x y = true.
Proof. unfold ltb. destruct (Rlt_dec x y); [auto|lra]. Qed.
Lemma ltb_ff x y : y <= x -> ltb x y = false.
Proof. unfold ltb. destruct (Rlt_dec x y); [lra|auto]. Qed.
Lemma rdiv_ok x y : y <> 0 -> rdiv x y = Ret (x / y).
Proof. unfold rdiv. destruct (Req_EM_T y 0); [contradiction|auto]. Qed.
Lemma rdiv_0 x : rdiv x 0 = Stuck.
Proof. unfold rdiv. destruct (Req_EM_T 0 0); [auto|congruence]. Qed.
Lemma rdiv_inv x y z : rdiv x y = Ret z -> y <> 0 /\ z = x / y.
Proof. unfold rdiv. destruct (Req_EM_T y 0); intros E; inversion E. auto. Qed.
Lemma abs_ge_nz x e : 0 < e -> e <= Rabs x -> x <> 0.
Proof. intros H1 H2 ->. rewrite Rabs_R0 in H2. lra. Qed.

Lemma vmaxl_ge l v x : (In x l -> Rabs x <= vmaxl l v) /\ v <= vmaxl l v.
Proof.
  revert v. unfold vmaxl. induction l as [|y l IH]; intros v; cbn [fold_left In].
  - split; [tauto|lra].
  - destruct (IH (if ltb v (Rabs y) then Rabs y else v)) as [A B].
    destruct (ltb v (Rabs y)) eqn:E; [apply ltb_t in E|apply ltb_f in E]; (split; [intros [->|H]; [lra|auto] | lra]).
Qed.

Lemma vmaxl_0 l : (forall x, In x l -> x = 0) -> vmaxl l 0 = 0.
Proof.
  unfold vmaxl. induction l as [|y l IH]; cbn [fold_left]; intros H; [reflexivity|].
  rewrite (H y) by (left; reflexivity). rewrite Rabs_R0. rewrite ltb_ff by lra.
  apply IH. intros x Hx. apply H. now right.
Qed.

(** ** 2x2 and 3x3 inversion, exact cases *)

Theorem C26_invmat22 : forall m, exists o, invmat22 m = Ret o /\
  match o with
  | Some mi => h0 m * h0 mi + h1 m * h2 mi = 1 /\ h0 m * h1 mi + h1 m * h3 mi = 0 /\
               h2 m * h0 mi + h3 m * h2 mi = 0 /\ h2 m * h1 mi + h3 m * h3 mi = 1
  | None => Rabs (h0 m * h3 m - h1 m * h2 m) < EPS
  end.
Proof.
  intros m. unfold invmat22. set (det := h0 m * h3 m - h1 m * h2 m).
  destruct (ltb (Rabs det) EPS) eqn:E.
  - exists None. split; [reflexivity|]. now apply ltb_t.
  - apply ltb_f in E. assert (Hd := abs_ge_nz _ _ EPS_pos E).
    rewrite rdiv_ok by exact Hd. cbn [bind]. eexists. split; [reflexivity|]. cbn [h0 h1 h2 h3].
    unfold det in *. repeat split; field; exact Hd.
Qed.

Theorem C26_invmatg : forall m, exists o, invmatg m = Ret o /\
  match o with
  | Some mi => inverse3 (of9 m) (of9 mi)
  | None => Rabs (g0 m * (g4 m * g8 m - g5 m * g7 m) - g1 m * (g3 m * g8 m - g5 m * g6 m)
                  + g2 m * (g3 m * g7 m - g4 m * g6 m)) < EPSD
  end.
Proof.
  intros m. unfold invmatg.
  set (det := g0 m * (g4 m * g8 m - g5 m * g7 m) + g1 m * (g5 m * g6 m - g3 m * g8 m) + g2 m * (g3 m * g7 m - g4 m * g6 m)).
  replace (g0 m * (g4 m * g8 m - g5 m * g7 m) - g1 m * (g3 m * g8 m - g5 m * g6 m)
                  + g2 m * (g3 m * g7 m - g4 m * g6 m)) with det by (unfold det; ring).
  unfold eqb. destruct (Req_EM_T _ 0) as [E|E].
  - exists None. split; [reflexivity|].
    assert (Z0 : g0 m = 0 /\ g1 m = 0 /\ g2 m = 0).
    { set (l := (g1 m :: _)%list) in E. set (v := Rabs (g0 m)) in E.
      pose proof (proj2 (vmaxl_ge l v 0)). pose proof (proj1 (vmaxl_ge l v (g1 m))). pose proof (proj1 (vmaxl_ge l v (g2 m))).
      rewrite E in *. unfold l in *. cbn [In] in *.
      assert (A : forall x, Rabs x <= 0 -> x = 0). { intros x Hx. pose proof (Rabs_pos x). destruct (Req_dec x 0) as [|N]; auto. apply Rabs_pos_lt in N. lra. }
      repeat split; apply A; auto 10. }
    destruct Z0 as [A [B C]]. unfold det. rewrite A, B, C.
    match goal with |- Rabs ?x < _ => replace x with 0 by ring end. rewrite Rabs_R0. apply EPSD_pos.
  - destruct (ltb (Rabs det) EPSD) eqn:D.
    + exists None. split; [reflexivity|]. now apply ltb_t.
    + apply ltb_f in D. assert (Hd := abs_ge_nz _ _ EPSD_pos D).
      rewrite rdiv_ok by exact Hd. cbn [bind]. eexists. split; [reflexivity|].
      unfold det in *. split; all9; field; exact Hd.
Qed.

(** The 2D-stored variant, when some off-diagonal entry is at least [EPS] in
    absolute value.  The debug assertion of the C code holds as well. *)
Definition offdiag9 (m : mat3) : Prop :=
  exists x, In x (g1 m :: g2 m :: g3 m :: g5 m :: g6 m :: g7 m :: nil) /\ EPS <= Rabs x.

Lemma abs0 x : x = 0 -> ltb (Rabs x) EPS = true.
Proof. intros ->. rewrite Rabs_R0. apply ltb_tt. apply EPS_pos. Qed.

Theorem C26_invmat33_partial : forall m, offdiag9 m -> exists o, invmat33 m = Ret o /\
  match o with
  | Some mi => inverse3 (of9 m) (of9 mi)
  | None => Rabs (g0 m * (g4 m * g8 m - g5 m * g7 m) - g1 m * (g3 m * g8 m - g5 m * g6 m)
                  + g2 m * (g3 m * g7 m - g4 m * g6 m)) < EPSD
  end.
Proof.
  intros m [x [Hx He]]. unfold invmat33.
  unfold eqb. destruct (Req_EM_T _ 0) as [E|E].
  { exfalso. set (l := (g0 m :: _)%list) in E. pose proof (proj1 (vmaxl_ge l (Rabs (g0 m)) x)) as K.
    assert (In x l) by (unfold l; cbn [In] in *; tauto). specialize (K H). rewrite E in K. pose proof EPS_pos. lra. }
  rewrite ltb_ff.
  2:{ set (l := (g6 m :: _)%list). pose proof (proj1 (vmaxl_ge l (Rabs (g3 m)) x)) as K.
      pose proof (proj2 (vmaxl_ge l (Rabs (g3 m)) x)) as K'.
      assert (In x l \/ x = g3 m) by (unfold l; cbn [In] in *; intuition). destruct H as [H| ->]; [specialize (K H)|]; lra. }
  set (det := g0 m * _ + _ + _).
  replace (g0 m * (g4 m * g8 m - g5 m * g7 m) - g1 m * (g3 m * g8 m - g5 m * g6 m)
                  + g2 m * (g3 m * g7 m - g4 m * g6 m)) with det by (unfold det; ring).
  destruct (ltb (Rabs det) EPSD) eqn:D.
  - exists None. split; [reflexivity|]. now apply ltb_t.
  - apply ltb_f in D. assert (Hd := abs_ge_nz _ _ EPSD_pos D).
    rewrite rdiv_ok by exact Hd. cbn [bind]. cbv zeta.
    unfold near_id. cbn [g0 g1 g2 g3 g4 g5 g6 g7 g8].
    unfold det in *.
    repeat (rewrite abs0; [|field; exact Hd]). cbn [andb c_assert bind].
    eexists. split; [reflexivity|]. split; all9; field; exact Hd.
Qed.

(** Symmetric matrices, when some off-diagonal entry is at least [EPS]. *)
Definition offdiag6 (m : sym3) : Prop :=
  EPS <= Rabs (s1 m) \/ EPS <= Rabs (s2 m) \/ EPS <= Rabs (s4 m).

Theorem C26_invmat_partial : forall m, offdiag6 m -> exists o, invmat m = Ret o /\
  match o with
  | Some mi => inverse3 (of6 m) (of6 mi)
  | None => Rabs (s0 m * (s3 m * s5 m - s4 m * s4 m) - s1 m * (s1 m * s5 m - s4 m * s2 m)
                  + s2 m * (s1 m * s4 m - s3 m * s2 m)) < EPSD2
  end.
Proof.
  intros m H. unfold invmat.
  assert (Hm : exists x, In x (s1 m :: s2 m :: s4 m :: nil) /\ EPS <= Rabs x).
  { destruct H as [H|[H|H]]; eexists; (split; [|exact H]); cbn; auto. }
  destruct Hm as [x [Hx He]].
  rewrite ltb_ff.
  2:{ set (l := (s2 m :: _)%list). pose proof (proj1 (vmaxl_ge l (Rabs (s1 m)) x)) as K.
      pose proof (proj2 (vmaxl_ge l (Rabs (s1 m)) x)) as K'.
      assert (In x l \/ x = s1 m) by (unfold l; cbn [In] in *; intuition). destruct H0 as [H0| ->]; [specialize (K H0)|]; lra. }
  unfold eqb. destruct (Req_EM_T _ 0) as [E|E].
  { exfalso. set (l := (s1 m :: _)%list) in E. pose proof (proj1 (vmaxl_ge l (Rabs (s0 m)) x)) as K.
    assert (In x l) by (unfold l; cbn [In] in *; tauto). specialize (K H0). rewrite E in K. pose proof EPS_pos. lra. }
  set (det := s0 m * _ + _ + _).
  replace (s0 m * (s3 m * s5 m - s4 m * s4 m) - s1 m * (s1 m * s5 m - s4 m * s2 m)
                  + s2 m * (s1 m * s4 m - s3 m * s2 m)) with det by (unfold det; ring).
  destruct (ltb (Rabs det) EPSD2) eqn:D.
  - exists None. split; [reflexivity|]. now apply ltb_t.
  - apply ltb_f in D. assert (Hd := abs_ge_nz _ _ EPSD2_pos D).
    rewrite rdiv_ok by exact Hd. cbn [bind]. eexists. split; [reflexivity|].
    unfold det in *. split; all9; field; exact Hd.
Qed.

(** Diagonal matrices are also inverted exactly. *)
Theorem C26_invmat_diagonal : forall a b c, a <> 0 -> b <> 0 -> c <> 0 ->
  exists mi, invmat (S6 a 0 0 b 0 c) = Ret (Some mi) /\ inverse3 (of6 (S6 a 0 0 b 0 c)) (of6 mi).
Proof.
  intros a b c Ha Hb Hc. unfold invmat. cbn [s0 s1 s2 s3 s4 s5].
  rewrite Rabs_R0, vmaxl_0 by (cbn; intuition). rewrite ltb_tt by apply EPS_pos.
  rewrite !rdiv_ok by assumption. cbn [bind]. eexists. split; [reflexivity|].
  split; all9; field; assumption.
Qed.

(** Otherwise the matrix is treated as diagonal: the returned matrix of
    success can be far from an inverse.  The absolute threshold [EPS] is
    compared with off-diagonal entries of any scale; here the matrix is
    positive definite with eigenvalues 2.8e-7, 1e-8 and 1e-8. *)
Definition small6 : sym3 := S6 (/ 10000000) (9 * / 100000000) (9 * / 100000000) (/ 10000000) (9 * / 100000000) (/ 10000000).
Theorem C26_invmat_refuted : exists m mi,
  invmat m = Ret (Some mi) /\ ~ inverse3 (of6 m) (of6 mi) /\
  (* the product is off by 0.9 *)
  mul3 (of6 m) (of6 mi) 0%nat 1%nat = 9 / 10.
Proof.
  set (i7 := 10000000).
  exists small6, (S6 i7 0 0 i7 0 i7).
  assert (E : mul3 (of6 small6) (of6 (S6 i7 0 0 i7 0 i7)) 0%nat 1%nat = 9 / 10).
  { cbv [mul3 of6 Nat.min Nat.max s0 s1 s2 s3 s4 s5 small6]. unfold i7. field. }
  split; [|split].
  - assert (A : Rabs (9 * / 100000000) = 9 * / 100000000) by (apply Rabs_pos_eq; lra).
    unfold invmat, small6. cbn [s0 s1 s2 s3 s4 s5]. unfold vmaxl. cbn [fold_left]. rewrite A.
    rewrite !(ltb_ff (9 * / 100000000) (9 * / 100000000)) by lra.
    rewrite ltb_tt by (rewrite EPS_val; lra). rewrite !rdiv_ok by lra. cbn [bind].
    unfold i7. do 3 f_equal; field.
  - intros [C _]. specialize (C 0%nat 1%nat ltac:(lia) ltac:(lia)). rewrite E in C. cbn in C. lra.
  - exact E.
Qed.

(** A null diagonal matrix is not detected: the code divides by zero and
    reports success. *)
Theorem C26_invmat_zero_refuted : exists m, ~ exists o, invmat m = Ret o.
Proof.
  exists (S6 0 0 0 0 0 0). intros [o H]. unfold invmat in H. cbn [s0 s1 s2 s3 s4 s5] in H.
  rewrite Rabs_R0, vmaxl_0 in H by (cbn; intuition). rewrite ltb_tt in H by apply EPS_pos.
  rewrite rdiv_0 in H. discriminate.
Qed.

Theorem C26_invmat33_refuted : exists m mi,
  invmat33 m = Ret (Some mi) /\ ~ inverse3 (of9 m) (of9 mi).
Proof.
  set (a := / 10000000). set (b := 9 * / 100000000). set (i7 := 10000000).
  exists (M9 a b b b a b b b a), (M9 i7 0 0 0 i7 0 0 0 i7). split.
  - unfold invmat33. cbn [g0 g1 g2 g3 g4 g5 g6 g7 g8]. unfold eqb.
    destruct (Req_EM_T _ 0) as [E|E].
    { exfalso. set (l := (a :: _)%list) in E. pose proof (proj2 (vmaxl_ge l (Rabs a) 0)) as K.
      rewrite E, Rabs_pos_eq in K by (unfold a; lra). unfold a in K. lra. }
    assert (A : Rabs b = b) by (apply Rabs_pos_eq; unfold b; lra).
    unfold vmaxl. cbn [fold_left]. rewrite A. rewrite !(ltb_ff b b) by lra. rewrite ltb_tt by (unfold b; rewrite EPS_val; lra).
    rewrite !rdiv_ok by (unfold a; lra). cbn [bind]. unfold a, i7. do 3 f_equal; field.
  - intros [C _]. specialize (C 0%nat 1%nat ltac:(lia) ltac:(lia)).
    cbv [mul3 of9 delta Nat.eqb g0 g1 g2 g3 g4 g5 g6 g7 g8] in C. unfold a, b, i7 in C. lra.
Qed.

(** ** Symmetric 3x3 solver *)
Definition det6 (a : sym3) : R :=
  s0 a * (s3 a * s5 a - s4 a * s4 a) - s1 a * (s1 a * s5 a - s2 a * s4 a) + s2 a * (s1 a * s4 a - s2 a * s3 a).
(** Scale applied before the determinant is tested: the smallest diagonal
    entry becomes one when it is not tiny. *)
Definition scale_ok (a : sym3) (m : R) : Prop :=
  let d := Rmin (Rabs (s0 a)) (Rmin (Rabs (s3 a)) (Rabs (s5 a))) in
  (d < EPSD /\ m = 1) \/ (EPSD <= d /\ m * d = 1).

Lemma rmin_Rmin x y : rmin x y = Rmin y x.
Proof. unfold rmin, Rmin. destruct (ltb x y) eqn:E; [apply ltb_t in E|apply ltb_f in E]; destruct (Rle_dec y x); lra. Qed.

Theorem C26_sys33sym : forall a b, exists o, sys33sym a b = Ret o /\
  match o with
  | Some r => forall i, (i < 3)%nat -> app3 (of6 a) (of3 r) i = of3 b i
  | None => exists m, scale_ok a m /\ Rabs (m * m * m * det6 a) < EPSD
  end.
Proof.
  intros a b. unfold sys33sym.
  set (m0 := rmin (Rabs (s5 a)) _).
  assert (M : exists m, (if ltb m0 EPSD then Ret 1 else rdiv 1 m0) = Ret m /\ m <> 0 /\ scale_ok a m).
  { assert (Em : m0 = Rmin (Rabs (s0 a)) (Rmin (Rabs (s3 a)) (Rabs (s5 a)))).
    { unfold m0. rewrite !rmin_Rmin. now rewrite Rmin_assoc. }
    pose proof EPSD_pos. unfold scale_ok. rewrite <- Em.
    destruct (ltb m0 EPSD) eqn:E.
    - apply ltb_t in E. exists 1. split; [auto|]. split; [lra|]. left. auto.
    - apply ltb_f in E. rewrite rdiv_ok by lra. eexists. split; [reflexivity|]. split.
      + apply Rmult_integral_contrapositive_currified; [lra|]. apply Rinv_neq_0_compat; lra.
      + right. split; [auto|]. field. lra. }
  destruct M as [m [-> [Hm Sc]]]. cbn [bind]. cbn [s0 s1 s2 s3 s4 s5].
  match goal with |- context [ltb (Rabs ?d) EPSD] => set (det := d) end.
  assert (Hdm : det = m * m * m * det6 a) by (unfold det, det6; ring).
  destruct (ltb (Rabs det) EPSD) eqn:D.
  - exists None. split; [reflexivity|]. exists m. split; [exact Sc|]. rewrite <- Hdm. now apply ltb_t.
  - apply ltb_f in D. assert (Hd := abs_ge_nz _ _ EPSD_pos D). rewrite rdiv_ok by exact Hd. cbn [bind].
    eexists. split; [reflexivity|].
    assert (Hd0 : det6 a <> 0). { intros C. rewrite C in Hdm. apply Hd. rewrite Hdm. ring. }
    intros i Hi. destruct i as [|[|[|]]]; [| | |lia]; cbv [app3 of6 of3 Nat.min Nat.max vx vy vz]; fold (vx b) (vy b) (vz b);
      rewrite Hdm; unfold det6 in *; field; auto.
Qed.

(** ** Products *)
Theorem C26_products : forall (r : mat3) (m n : sym3),
  eq3 (of9 (mn m n)) (mul3 (of6 m) (of6 n)) /\
  eq3 (of6 (rmtr r m)) (mul3 (of9 r) (mul3 (of6 m) (tr (of9 r)))).
Proof. intros r m n. split; unfold rmtr, mn; all9; ring. Qed.

(** ** Rotation to the third axis *)
Definition unit (v : vec3) : Prop := vx v * vx v + vy v * vy v + vz v * vz v = 1.
Definition rotation_to_z (r : mat) (n : vec3) : Prop :=
  eq3 (mul3 r (tr r)) delta /\ eq3 (mul3 (tr r) r) delta /\
  (forall i, (i < 3)%nat -> app3 r (of3 n) i = of3 (V3 0 0 1) i) /\
  (* determinant one: orientation kept *)
  r 0%nat 0%nat * (r 1%nat 1%nat * r 2%nat 2%nat - r 1%nat 2%nat * r 2%nat 1%nat)
  - r 0%nat 1%nat * (r 1%nat 0%nat * r 2%nat 2%nat - r 1%nat 2%nat * r 2%nat 0%nat)
  + r 0%nat 2%nat * (r 1%nat 0%nat * r 2%nat 1%nat - r 1%nat 1%nat * r 2%nat 0%nat) = 1.

Lemma sq_nonneg (x : R) : 0 <= x * x. Proof. nra. Qed.

(** Unit vectors away from the axis. *)
Theorem C26_rotmatrix_partial : forall n, unit n -> EPS <= vx n * vx n + vy n * vy n ->
  exists r, rotmatrix n = Ret r /\ rotation_to_z (of9 r) n.
Proof.
  intros n U H. unfold rotmatrix. rewrite ltb_ff by exact H.
  set (a := vx n) in *. set (b := vy n) in *. set (c := vz n) in *.
  unfold unit in U. fold a b c in U. pose proof EPS_pos.
  assert (Hm : rmin 1 (c * c) = c * c).
  { unfold rmin. rewrite ltb_ff; [reflexivity|]. pose proof (sq_nonneg a); pose proof (sq_nonneg b); lra. }
  rewrite Hm. replace (1 - c * c) with (a * a + b * b) by lra.
  set (l := sqrt (a * a + b * b)).
  assert (Hl : l * l = a * a + b * b) by (apply sqrt_sqrt; lra).
  assert (Hl0 : 0 < l) by (apply sqrt_lt_R0; lra).
  rewrite !rdiv_ok by lra. cbn [bind]. eexists. split; [reflexivity|].
  assert (Hc : c * c = 1 - l * l) by lra.
  assert (HD : a * a + b * b <> 0) by lra.
  assert (Hln : l <> 0) by lra.
  assert (Sx : - a * l / l = - a) by (field; auto).
  assert (Sy : - b * l / l = - b) by (field; auto).
  assert (Tx : a * l / l = a) by (field; auto).
  assert (Ty : b * l / l = b) by (field; auto).
  rewrite Sx, Sy, Tx, Ty.
  set (D := a * a + b * b) in *.
  set (A := (a * a * c + b * b) / D). set (B := a * b * (c - 1) / D). set (C := (b * b * c + a * a) / D).
  assert (HA : A * D = a * a * c + b * b) by (unfold A; field; auto).
  assert (HB : B * D = a * b * (c - 1)) by (unfold B; field; auto).
  assert (HC : C * D = b * b * c + a * a) by (unfold C; field; auto).
  assert (Hcc : c * c = 1 - D) by lra.
  assert (HDe : D = a * a + b * b) by reflexivity.
  assert (DD : D * D <> 0) by (apply Rmult_integral_contrapositive_currified; auto).
  assert (K : forall x y, x * D = y * D -> x = y) by (intros x y E; apply Rmult_eq_reg_r with D; auto).
  assert (K2 : forall x y, x * (D * D) = y * (D * D) -> x = y) by (intros x y E; apply Rmult_eq_reg_r with (D * D); auto).
  assert (Aa : A * a + B * b = a * c).
  { apply K. replace ((A * a + B * b) * D) with (A * D * a + B * D * b) by ring. rewrite HA, HB, HDe. ring. }
  assert (Bb : B * a + C * b = b * c).
  { apply K. replace ((B * a + C * b) * D) with (B * D * a + C * D * b) by ring. rewrite HC, HB, HDe. ring. }
  assert (P1 : A * A + B * B + a * a = 1).
  { apply K2. replace ((A * A + B * B + a * a) * (D * D)) with ((A * D) * (A * D) + (B * D) * (B * D) + a * a * (D * D)) by ring.
    rewrite HA, HB. rewrite !HDe.
    transitivity (a*a*a*a*(c*c) + 2*a*a*b*b*c + b*b*b*b + a*a*b*b*(c*c - 2 * c + 1) + a * a * ((a * a + b * b) * (a * a + b * b))); [ring|].
    rewrite Hcc, HDe. ring. }
  assert (P2 : B * B + C * C + b * b = 1).
  { apply K2. replace ((B * B + C * C + b * b) * (D * D)) with ((B * D) * (B * D) + (C * D) * (C * D) + b * b * (D * D)) by ring.
    rewrite HC, HB. rewrite !HDe.
    transitivity (b*b*b*b*(c*c) + 2*a*a*b*b*c + a*a*a*a + a*a*b*b*(c*c - 2 * c + 1) + b * b * ((a * a + b * b) * (a * a + b * b))); [ring|].
    rewrite Hcc, HDe. ring. }
  assert (P3 : A * B + B * C + a * b = 0).
  { apply K2. replace ((A * B + B * C + a * b) * (D * D)) with ((A * D) * (B * D) + (B * D) * (C * D) + a * b * (D * D)) by ring.
    rewrite HA, HC, HB. rewrite !HDe.
    transitivity (a * b * (a * a + b * b) * ((c*c - 1) + (a * a + b * b))); [ring|].
    rewrite Hcc, HDe. ring. }
  assert (P4 : A * C - B * B = c).
  { apply K2. replace ((A * C - B * B) * (D * D)) with ((A * D) * (C * D) - (B * D) * (B * D)) by ring.
    rewrite HA, HC, HB. rewrite !HDe. ring. }
  unfold rotation_to_z. split; [|split; [|split]].
  - all9; nra.
  - all9; nra.
  - intros i Hi. destruct i as [|[|[|]]]; [| | |lia]; cbv [app3 of9 of3 g0 g1 g2 g3 g4 g5 g6 g7 g8]; cbn [vx vy vz]; fold a b c; nra.
  - cbv [of9 g0 g1 g2 g3 g4 g5 g6 g7 g8].
    replace (A * (C * c - - b * b) - B * (B * c - - b * a) + - a * (B * b - C * a))
      with ((A * C - B * B) * c + b * (A * b - B * a) - a * (B * b - C * a)) by ring.
    rewrite P4.
    assert (Ab : (A * b - B * a) * D = b * D).
    { replace ((A * b - B * a) * D) with (A * D * b - B * D * a) by ring. rewrite HA, HB, HDe. ring. }
    assert (Ca : (B * b - C * a) * D = - a * D).
    { replace ((B * b - C * a) * D) with (B * D * b - C * D * a) by ring. rewrite HC, HB, HDe. ring. }
    apply K in Ab. apply K in Ca. rewrite Ab, Ca. lra.
Qed.

(** Close to the axis the identity (or a half turn) is returned: orthonormal,
    but it does not send [n] to the third axis. *)
Theorem C26_rotmatrix_refuted : exists n r, unit n /\ rotmatrix n = Ret r /\
  ~ (forall i, (i < 3)%nat -> app3 (of9 r) (of3 n) i = of3 (V3 0 0 1) i).
Proof.
  set (t := / 10000). set (d := 1 + t * t).
  exists (V3 (2 * t / d) 0 ((1 - t * t) / d)), (M9 1 0 0 0 1 0 0 0 1).
  assert (Hd : d <> 0) by (unfold d, t; lra).
  split; [|split].
  - unfold unit. cbn [vx vy vz]. field_simplify_eq; auto. unfold d. ring.
  - unfold rotmatrix. cbn [vx vy vz]. rewrite ltb_tt.
    + rewrite ltb_tt; [reflexivity|]. unfold d, t. apply Rdiv_lt_0_compat; lra.
    + assert (A : 0 < 2 * t / d <= 2 * t).
      { split; [unfold d, t; apply Rdiv_lt_0_compat; lra|].
        apply Rmult_le_reg_r with d; [unfold d, t; lra|]. replace (2 * t / d * d) with (2 * t) by (field; auto). unfold d, t; lra. }
      assert (B : 2 * t / d * (2 * t / d) <= 2 * t * (2 * t)) by (apply Rmult_le_compat; lra).
      rewrite EPS_val. unfold t in *. lra.
  - intros C. specialize (C 0%nat ltac:(lia)). cbv [app3 of9 of3 g0 g1 g2 g3 g4 g5 g6 g7 g8] in C. cbn [vx vy vz] in C.
    assert (0 < 2 * t / d) by (unfold d, t; apply Rdiv_lt_0_compat; lra). lra.
Qed.

(** The error of that shortcut: the image is within 1e-3 of the axis on each
    coordinate, and the matrix is always orthonormal. *)
Theorem C26_rotmatrix_orthonormal : forall n, unit n ->
  exists r, rotmatrix n = Ret r /\ eq3 (mul3 (of9 r) (tr (of9 r))) delta /\
    forall i, (i < 3)%nat -> Rabs (app3 (of9 r) (of3 n) i - of3 (V3 0 0 1) i) <= / 1000.
Proof.
  intros n U. destruct (Rlt_le_dec (vx n * vx n + vy n * vy n) EPS) as [L|L].
  - unfold rotmatrix. rewrite ltb_tt by exact L. rewrite EPS_val in L. unfold unit in U.
    assert (X : Rabs (vx n) <= / 1000). { apply Rabs_le. pose proof (sq_nonneg (vy n)). nra. }
    assert (Y : Rabs (vy n) <= / 1000). { apply Rabs_le. pose proof (sq_nonneg (vx n)). nra. }
    pose proof (sq_nonneg (vx n)); pose proof (sq_nonneg (vy n)).
    destruct (ltb 0 (vz n)) eqn:E; [apply ltb_t in E|apply ltb_f in E]; (eexists; split; [reflexivity|]; split; [all9; ring|]);
      intros i Hi; (destruct i as [|[|[|]]]; [| | |lia]); cbv [app3 of9 of3 g0 g1 g2 g3 g4 g5 g6 g7 g8]; cbn [vx vy vz].
    + replace (_ - 0) with (vx n) by ring. exact X.
    + replace (_ - 0) with (vy n) by ring. exact Y.
    + apply Rabs_le. nra.
    + replace (_ - 0) with (- vx n) by ring. rewrite Rabs_Ropp. exact X.
    + replace (_ - 0) with (vy n) by ring. exact Y.
    + apply Rabs_le. nra.
  - destruct (C26_rotmatrix_partial n U L) as [r [E [O [_ [Z _]]]]]. exists r. split; [exact E|]. split; [exact O|].
    intros i Hi. rewrite Z by exact Hi. unfold Rminus. rewrite Rplus_opp_r, Rabs_R0. lra.
Qed.

(** ** Face normals *)
Definition dot (a b : vec3) : R := vx a * vx b + vy a * vy b + vz a * vz b.
Definition sub (a b : vec3) : vec3 := V3 (vx a - vx b) (vy a - vy b) (vz a - vz b).
Lemma unit_scale N r : 0 < r -> r * r = dot N N -> unit (V3 (vx N * (1 / r)) (vy N * (1 / r)) (vz N * (1 / r))).
Proof.
  intros H E. unfold unit. cbn [vx vy vz]. unfold dot in E.
  transitivity ((vx N * vx N + vy N * vy N + vz N * vz N) / (r * r)); [field; lra|]. rewrite E. field. rewrite <- E. nra.
Qed.
Lemma dot_scale N r v : 0 < r -> dot N v = 0 -> dot (V3 (vx N * (1 / r)) (vy N * (1 / r)) (vz N * (1 / r))) v = 0.
Proof.
  intros H E. unfold dot in *. cbn [vx vy vz].
  transitivity ((vx N * vx v + vy N * vy v + vz N * vz v) / r); [field; lra|]. rewrite E. field. lra.
Qed.
Theorem C26_normal : forall p q s, exists o, norpts p q s = Ret o /\
  forall n, o = Some n ->
    unit n /\ dot n (sub q p) = 0 /\ dot n (sub s p) = 0 /\ 
    (* direct orientation: (q-p, s-p, n) is positive *)
    0 < det3pt1vec p q s n.
Proof.
  intros p q s. unfold norpts. set (N := nonUnitNor p q s).
  set (det := vx N * vx N + vy N * vy N + vz N * vz N).
  destruct (ltb det EPSD2) eqn:E.
  - exists None. split; [reflexivity|]. discriminate.
  - apply ltb_f in E. pose proof EPSD2_pos.
    assert (Hs : sqrt det * sqrt det = det) by (apply sqrt_sqrt; lra).
    assert (Hp : 0 < sqrt det) by (apply sqrt_lt_R0; lra).
    rewrite rdiv_ok by lra. cbn [bind]. eexists. split; [reflexivity|]. intros n En.
    assert (En' : n = V3 (vx N * (1 / sqrt det)) (vy N * (1 / sqrt det)) (vz N * (1 / sqrt det))) by congruence. clear En. rewrite En'. clear En'.
    assert (O1 : dot N (sub q p) = 0) by (unfold N, nonUnitNor, dot, sub; cbn [vx vy vz]; ring).
    assert (O2 : dot N (sub s p) = 0) by (unfold N, nonUnitNor, dot, sub; cbn [vx vy vz]; ring).
    assert (O3 : forall d, det3pt1vec p q s (V3 (vx N * d) (vy N * d) (vz N * d)) = det * d).
    { intros d. unfold det, N, nonUnitNor, det3pt1vec. cbn [vx vy vz]. ring. }
    set (rs := sqrt det) in *.
    split; [|split; [|split]].
    + apply unit_scale; [lra|exact Hs].
    + apply dot_scale; [lra|exact O1].
    + apply dot_scale; [lra|exact O2].
    + rewrite O3. apply Rmult_lt_0_compat; [lra|]. apply Rdiv_lt_0_compat; lra.
Qed.

(** ** Concrete instances *)
Example C26_invmat_case : offdiag6 (S6 2 1 0 2 0 1) /\
  exists mi, invmat (S6 2 1 0 2 0 1) = Ret (Some mi) /\ inverse3 (of6 (S6 2 1 0 2 0 1)) (of6 mi).
Proof.
  assert (H : offdiag6 (S6 2 1 0 2 0 1)) by (left; cbn [s1]; rewrite Rabs_R1, EPS_val; lra).
  split; [exact H|]. destruct (C26_invmat_partial _ H) as [o [E K]]. destruct o as [mi|].
  - exists mi. auto.
  - exfalso. cbn [s0 s1 s2 s3 s4 s5] in K.
    replace (2 * (2 * 1 - 0 * 0) - 1 * (1 * 1 - 0 * 0) + 0 * (1 * 0 - 2 * 0)) with 3 in K by ring.
    rewrite Rabs_pos_eq in K by lra. unfold EPSD2 in K.
    assert (/ 10 ^ 200 < / 1) by (apply Rinv_lt_contravar; [rewrite Rmult_1_l; apply pow_lt; lra | apply Rlt_pow_R1; [lra|lia]]). lra.
Qed.
Example C26_invmat33_case : offdiag9 (M9 7 2 1 0 3 (-1) (-3) 4 (-2)).
Proof. exists 2. split; [cbn; auto|]. rewrite Rabs_pos_eq, EPS_val by lra. lra. Qed.
Example C26_rotmatrix_case : unit (V3 (3/5) 0 (4/5)) /\ EPS <= 3/5 * (3/5) + 0 * 0.
Proof. split; [unfold unit; cbn [vx vy vz]; field | rewrite EPS_val; lra]. Qed.
Example C26_normal_case : exists n, norpts (V3 0 0 0) (V3 2 0 0) (V3 0 3 0) = Ret (Some n).
Proof.
  destruct (C26_normal (V3 0 0 0) (V3 2 0 0) (V3 0 3 0)) as [o [E _]]. destruct o as [n|]; [eauto|].
  exfalso. unfold norpts, nonUnitNor in E. cbn [vx vy vz] in E.
  rewrite ltb_ff in E.
  - destruct (rdiv 1 _) in E; discriminate.
  - unfold EPSD2. assert (/ 10 ^ 200 < / 1) by (apply Rinv_lt_contravar; [rewrite Rmult_1_l; apply pow_lt; lra | apply Rlt_pow_R1; [lra|lia]]). lra.
Qed.

Print Assumptions C26_invmat22.
Print Assumptions C26_invmatg.
Print Assumptions C26_invmat33_partial.
Print Assumptions C26_invmat_partial.
Print Assumptions C26_invmat_diagonal.
Print Assumptions C26_invmat_refuted.
Print Assumptions C26_invmat_zero_refuted.
Print Assumptions C26_invmat33_refuted.
Print Assumptions C26_sys33sym.
Print Assumptions C26_products.
Print Assumptions C26_rotmatrix_partial.
Print Assumptions C26_rotmatrix_refuted.
Print Assumptions C26_rotmatrix_orthonormal.
Print Assumptions C26_normal.
