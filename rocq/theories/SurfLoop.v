(** Proofs about [MMG5_setadj]: the whole walk. *)
From Coq Require Import ZArith List Bool Lia.
From Coq Require Import Relations.Relation_Operators.
From Verif Require Import CBase SurfModel SurfProofs.
Import ListNotations.
Open Scope Z_scope.

Section Surf.
Variable nt : Z.
Variable opn : bool.
Variable a0 : arr stri.
Hypothesis V : valid0 nt a0.
Variable cur : Z -> bool.
Hypothesis O : oriented_by nt a0 cur.

Notation okk := (ok nt a0).
Notation J3 := (JJ nt opn a0 cur).

Lemma in3_0 : in3 0. Proof. left. reflexivity. Qed.
Lemma in3_1 : in3 1. Proof. right. left. reflexivity. Qed.
Lemma in3_2 : in3 2. Proof. right. right. reflexivity. Qed.

Lemma eok_same a p f k : W nt opn a0 a p f -> 1 <= k <= nt -> s_eok (aget a k) = s_eok (aget a0 k).
Proof.
  intros HW Hk. destruct (s_eok (aget a0 k)) eqn:E.
  - assert (Hok : okk k) by (split; assumption).
    unfold s_eok. rewrite (w_v _ _ _ _ _ _ HW k 0 Hok in3_0).
    destruct (w_turn _ _ _ _ _ _ HW k Hok 0 in3_0) as (P & _).
    apply Z.ltb_lt. apply (v_pos _ _ V); assumption.
  - unfold s_eok. rewrite (w_no _ _ _ _ _ _ HW k Hk); [exact E |].
    intros [_ C]. congruence.
Qed.

(** The triangle taken from the pile. *)
Lemma process_ok ncc a pl U p f k :
  J3 ncc (put a k (set_flag ncc)) pl U p f (fun j => j <> k) -> okk k -> ~ In k pl ->
  exists a' pl' U' p' f',
    process nt opn ncc k (mkSS a pl) = Ret (Some (mkSS a' pl')) /\
    J3 ncc a' pl' U' p' f' (fun _ => True) /\ (work U' pl' <= work U pl)%nat.
Proof.
  intros J Hk Nk. unfold process. cbn [tr pile].
  pose proof (j_W _ _ _ _ _ _ _ _ _ _ _ J) as HW.
  pose proof (ok_range _ _ _ _ _ _ _ HW Hk) as Rk. rewrite put_len in Rk.
  rewrite chg_ok by exact Rk. cbn [bind].
  set (b := put a k (set_flag ncc)) in *.
  rewrite rd_ok by exact Rk. cbn [bind].
  rewrite (eok_same _ _ _ _ HW (proj1 Hk)). rewrite (proj2 Hk). cbn [negb].
  assert (Fk : fl b k = ncc) by (unfold fl, b; rewrite put_same; reflexivity).
  destruct (visit_ok nt opn a0 V cur O ncc b pl U p f k 0 J Hk Fk Nk in3_0)
    as (a1 & pl1 & U1 & p1 & f1 & E1 & J1 & Fk1 & Nk1 & M1 & L1 & S1).
  rewrite E1. cbn [bind].
  destruct (visit_ok nt opn a0 V cur O ncc a1 pl1 U1 p1 f1 k 1 J1 Hk Fk1 Nk1 in3_1)
    as (a2 & pl2 & U2 & p2 & f2 & E2 & J2 & Fk2 & Nk2 & M2 & L2 & S2).
  rewrite E2. cbn [bind].
  destruct (visit_ok nt opn a0 V cur O ncc a2 pl2 U2 p2 f2 k 2 J2 Hk Fk2 Nk2 in3_2)
    as (a3 & pl3 & U3 & p3 & f3 & E3 & JJ3 & Fk3 & Nk3 & M3 & L3 & S3).
  exists a3, pl3, U3, p3, f3. split; [exact E3 |]. split; [| lia].
  pose proof (j_ncc _ _ _ _ _ _ _ _ _ _ _ J) as N1.
  assert (SEEN : forall i, in3 i -> seen opn a0 a3 p3 k i).
  { assert (P1 : forall i, in3 i -> in3 (p1 k i)).
    { intros i Hi. apply (w_turn _ _ _ _ _ _ (j_W _ _ _ _ _ _ _ _ _ _ _ J1) k Hk i Hi). }
    assert (P2 : forall i, in3 i -> in3 (p2 k i)).
    { intros i Hi. apply (w_turn _ _ _ _ _ _ (j_W _ _ _ _ _ _ _ _ _ _ _ J2) k Hk i Hi). }
    intros i [-> | [-> | ->]].
    - apply (seen_later nt opn a0 V a2 a3 p2 p3); auto using in3_0; [lia |].
      apply (seen_later nt opn a0 V a1 a2 p1 p2); auto using in3_0. lia.
    - apply (seen_later nt opn a0 V a2 a3 p2 p3); auto using in3_1. lia.
    - exact S3. }
  constructor; try apply JJ3.
  intros j Hj Fj Nj _ i Hi. destruct (Z.eq_dec j k) as [-> | N]; [apply SEEN; exact Hi |].
  exact (j_cl _ _ _ _ _ _ _ _ _ _ _ JJ3 j Hj Fj Nj N i Hi).
Qed.

(** The triangle taken from the pile has its flag already. *)
Lemma JJ_pop ncc a k pl U p f : J3 ncc a (k :: pl) U p f (fun _ => True) ->
  J3 ncc (put a k (set_flag ncc)) pl U p f (fun j => j <> k) /\ okk k /\ ~ In k pl.
Proof.
  intros J. destruct (j_pl _ _ _ _ _ _ _ _ _ _ _ J k (or_introl eq_refl)) as (Hk & Fk).
  pose proof (j_nd _ _ _ _ _ _ _ _ _ _ _ J) as ND. apply NoDup_cons_iff in ND. destruct ND as [N1 N2].
  split; [| auto].
  set (b := put a k (set_flag ncc)).
  assert (W' : W nt opn a0 b p f) by (apply W_put; [apply J | intros t; repeat split]).
  assert (F : forall j, fl b j = fl a j).
  { intros j. unfold fl, b. destruct (Z.eq_dec j k) as [-> | N]; [rewrite put_same | rewrite put_other by exact N; reflexivity].
    cbn [s_flag set_flag]. symmetry. exact Fk. }
  assert (G : forall j, s_base (aget b j) = s_base (aget a j) /\ s_tag (aget b j) = s_tag (aget a j)).
  { intros j. unfold b. destruct (Z.eq_dec j k) as [-> | N]; [rewrite put_same | rewrite put_other by exact N]; auto. }
  constructor.
  - exact W'.
  - apply J.
  - intros j. rewrite F. apply J.
  - intros j. rewrite F. destruct (G j) as (-> & _). apply J.
  - exact N2.
  - intros j Hj. rewrite F. apply J. right. exact Hj.
  - intros j j'. rewrite !F. apply J.
  - intros j j'. rewrite !F. apply J.
  - intros j Hj Fj Nj N i Hi. rewrite F in Fj. unfold seen. rewrite !F. destruct (G j) as (_ & ->).
    apply (j_cl _ _ _ _ _ _ _ _ _ _ _ J); auto. intros [C | C]; [congruence | contradiction].
  - intros j. rewrite F. apply J.
  - intros c Hc. destruct (j_all _ _ _ _ _ _ _ _ _ _ _ J c Hc) as (j & Hj & E). exists j. rewrite F. auto.
Qed.

Lemma next_free_spec a : forall n kk, 1 <= kk -> kk + Z.of_nat n <= alen a ->
  (exists k, next_free n kk a = Ret (Some k) /\ kk <= k < kk + Z.of_nat n /\
             s_eok (aget a k) = true /\ s_flag (aget a k) = 0) \/
  (next_free n kk a = Ret None /\
   forall k, kk <= k < kk + Z.of_nat n -> s_eok (aget a k) = true -> s_flag (aget a k) <> 0).
Proof.
  induction n as [| n IH]; intros kk H1 H2.
  - right. split; [reflexivity |]. intros k Hk. lia.
  - cbn [next_free]. rewrite rd_ok by lia. cbn [bind].
    destruct (s_eok (aget a kk) && (s_flag (aget a kk) =? 0)) eqn:E.
    + left. exists kk. apply andb_true_iff in E. destruct E as [E1 E2]. apply Z.eqb_eq in E2.
      split; [reflexivity |]. split; [lia | auto].
    + destruct (IH (kk + 1)) as [(k & A & B & C) | (A & B)]; [lia | lia | |].
      * left. exists k. split; [exact A |]. split; [lia | exact C].
      * right. split; [exact A |]. intros k Hk Ek.
        destruct (Z.eq_dec k kk) as [-> | N]; [| apply B; [lia | exact Ek]].
        rewrite Ek in E. cbn in E. apply Z.eqb_neq. exact E.
Qed.

(** A new component. *)
Lemma JJ_restart ncc a U p f k : J3 ncc a [] U p f (fun _ => True) -> okk k -> fl a k = 0 ->
  J3 (ncc + 1) (put a k (set_flag (ncc + 1))) [k] (remove Z.eq_dec k U) p f (fun _ => True) /\
  (work (remove Z.eq_dec k U) [k] < work U [])%nat.
Proof.
  intros J Hk Fk.
  set (b := put a k (set_flag (ncc + 1))).
  pose proof (j_ncc _ _ _ _ _ _ _ _ _ _ _ J) as N1.
  assert (W' : W nt opn a0 b p f) by (apply W_put; [apply J | intros t; repeat split]).
  assert (Fb : fl b k = ncc + 1) by (unfold fl, b; rewrite put_same; reflexivity).
  assert (F : forall j, j <> k -> fl b j = fl a j).
  { intros j N. unfold fl, b. rewrite put_other by exact N. reflexivity. }
  assert (G : forall j, s_base (aget b j) = s_base (aget a j) /\ s_tag (aget b j) = s_tag (aget a j)).
  { intros j. unfold b. destruct (Z.eq_dec j k) as [-> | N]; [rewrite put_same | rewrite put_other by exact N]; auto. }
  assert (SAME : forall j j', okk j -> okk j' -> fl b j <> 0 -> fl b j = fl b j' ->
             (j = k /\ j' = k) \/ (fl a j <> 0 /\ fl a j = fl a j')).
  { intros j j' Hj Hj' Fj E.
    destruct (Z.eq_dec j k) as [-> | N]; destruct (Z.eq_dec j' k) as [-> | N']; auto.
    - rewrite Fb, (F j' N') in E. pose proof (j_fl _ _ _ _ _ _ _ _ _ _ _ J j' Hj'). lia.
    - rewrite Fb, (F j N) in E. pose proof (j_fl _ _ _ _ _ _ _ _ _ _ _ J j Hj). lia.
    - right. rewrite (F j N) in *. rewrite (F j' N') in E. auto. }
  split.
  - constructor.
    + exact W'.
    + lia.
    + intros j Hj. destruct (Z.eq_dec j k) as [-> | N]; [lia |]. rewrite (F j N).
      pose proof (j_fl _ _ _ _ _ _ _ _ _ _ _ J j Hj). lia.
    + intros j Hj. destruct (G j) as (-> & _). destruct (j_bs _ _ _ _ _ _ _ _ _ _ _ J j Hj) as (B1 & B2).
      split; [exact B1 |]. destruct (Z.eq_dec j k) as [-> | N]; [lia |]. rewrite (F j N). exact B2.
    + constructor; [intros [] | constructor].
    + intros j [<- | []]. auto.
    + intros j j' Hj Hj' Fj E. destruct (SAME j j' Hj Hj' Fj E) as [(-> & ->) | (A & B)]; [reflexivity |].
      apply (j_or _ _ _ _ _ _ _ _ _ _ _ J); assumption.
    + intros j j' Hj Hj' Fj E. destruct (SAME j j' Hj Hj' Fj E) as [(-> & ->) | (A & B)]; [apply rst_refl |].
      apply (j_cn _ _ _ _ _ _ _ _ _ _ _ J); assumption.
    + intros j Hj Fj Nj _ i Hi.
      assert (N : j <> k) by (intros ->; apply Nj; left; reflexivity).
      rewrite (F j N) in Fj.
      destruct (j_cl _ _ _ _ _ _ _ _ _ _ _ J j Hj Fj (fun x => x) I i Hi) as (A & B).
      unfold seen. destruct (G j) as (_ & ->). split; [exact A |].
      intros E Wk. destruct (B E Wk) as (B1 & B2). split; [| exact B2].
      rewrite (F j N). rewrite <- B1. apply F. intros C. congruence.
    + intros j Hj Fj. destruct (Z.eq_dec j k) as [-> | N]; [lia |].
      apply in_in_remove; [exact N |]. apply (j_U _ _ _ _ _ _ _ _ _ _ _ J); [exact Hj |].
      rewrite <- (F j N). exact Fj.
    + intros c Hc. destruct (Z.eq_dec c (ncc + 1)) as [-> | Nc]; [exists k; auto |].
      destruct (j_all _ _ _ _ _ _ _ _ _ _ _ J c) as (j & Hj & E); [lia |].
      exists j. split; [exact Hj |]. rewrite F; [exact E |]. intros ->. destruct (s_eok (aget a0 1)); lia.
  - pose proof (remove_length_lt Z.eq_dec U k (j_U _ _ _ _ _ _ _ _ _ _ _ J k Hk Fk)).
    unfold work. cbn [length]. lia.
Qed.

(** The result. *)
Definition result (ncc : Z) (a : arr stri) : Prop :=
  exists p f, W nt opn a0 a p f /\
    (forall j, okk j -> 1 <= fl a j <= ncc) /\
    (forall j j', okk j -> okk j' -> fl a j = fl a j' -> side cur f j = side cur f j' /\ conn nt a0 j j') /\
    (forall j i, okk j -> in3 i -> seen opn a0 a p j i) /\
    (forall c, (if s_eok (aget a0 1) then 1 else 2) <= c <= ncc -> exists j, okk j /\ fl a j = c).

Lemma loop_ok : forall fuel ncc a pl U p f,
  J3 ncc a pl U p f (fun _ => True) -> (work U pl < fuel)%nat ->
  exists ncc' a', loop nt opn fuel ncc (mkSS a pl) = Ret (Some (ncc', a')) /\ result ncc' a'.
Proof.
  induction fuel as [| fuel IH]; intros ncc a pl U p f J M; [lia |].
  cbn [loop pile tr]. destruct pl as [| k pl].
  - pose proof (w_len _ _ _ _ _ _ (j_W _ _ _ _ _ _ _ _ _ _ _ J)) as L.
    pose proof (j_W _ _ _ _ _ _ _ _ _ _ _ J) as HW.
    destruct (Z.lt_ge_cases nt 0) as [NEG | NNEG].
    { replace (Z.to_nat nt) with 0%nat by lia. cbn [next_free bind].
      exists ncc, a. split; [reflexivity |]. exists p, f. split; [exact HW |].
      split; [| split; [| split]]; try (intros j; unfold ok; intros; lia). apply J. }
    destruct (next_free_spec a (Z.to_nat nt) 1) as [(k & A & B & C & D) | (A & B)]; [lia | lia | |].
    + rewrite A. cbn [bind].
      assert (Hk : okk k).
      { assert (R : 1 <= k <= nt) by lia. split; [exact R |]. rewrite <- (eok_same _ _ _ _ HW R). exact C. }
      rewrite chg_ok by (apply (ok_range _ _ _ _ _ _ _ HW Hk)). cbn [bind].
      replace (push nt k []) with (Ret [k]).
      2:{ unfold push. cbn [length]. replace (Z.of_nat 0 + 1 <=? nt) with true by (symmetry; apply Z.leb_le; lia). reflexivity. }
      cbn [bind].
      destruct (JJ_restart ncc a U p f k J Hk D) as (J' & M').
      apply (IH _ _ _ _ _ _ J'). lia.
    + rewrite A. cbn [bind]. exists ncc, a. split; [reflexivity |].
      assert (FN : forall j, okk j -> fl a j <> 0).
      { intros j [R Ej]. apply B; [lia |]. rewrite (eok_same _ _ _ _ HW R). exact Ej. }
      exists p, f. split; [exact HW |]. split; [| split; [| split; [| apply J]]].
      * intros j Hj. pose proof (FN j Hj). pose proof (j_fl _ _ _ _ _ _ _ _ _ _ _ J j Hj). lia.
      * intros j j' Hj Hj' E. split.
        -- apply (j_or _ _ _ _ _ _ _ _ _ _ _ J); auto.
        -- apply (j_cn _ _ _ _ _ _ _ _ _ _ _ J); auto.
      * intros j i Hj Hi. apply (j_cl _ _ _ _ _ _ _ _ _ _ _ J); auto.
  - destruct (JJ_pop _ _ _ _ _ _ _ J) as (J' & Hk & Nk).
    destruct (process_ok _ _ _ _ _ _ _ J' Hk Nk) as (a' & pl' & U' & p' & f' & E & J'' & M').
    rewrite E. cbn [bind]. apply (IH _ _ _ _ _ _ J''). unfold work in *. cbn [length] in M. lia.
Qed.

Definition all : list Z := map Z.of_nat (seq 1 (Z.to_nat nt)).
Lemma in_all j : okk j -> In j all.
Proof. intros [R _]. apply in_map_iff. exists (Z.to_nat j). split; [lia |]. apply in_seq. lia. Qed.
Lemma all_len : length all = Z.to_nat nt.
Proof. unfold all. rewrite map_length, seq_length. reflexivity. Qed.

Theorem setadj_ok : 1 <= nt ->
  exists ncc a, setadj nt opn a0 = Ret (Some (ncc, a)) /\ result ncc a.
Proof.
  intros NT. unfold setadj, push. cbn [length].
  replace (Z.of_nat 0 + 1 <=? nt) with true by (symmetry; apply Z.leb_le; lia). cbn [c_assert bind].
  set (b := put a0 1 (set_flag 1)).
  assert (W' : W nt opn a0 b (fun _ i => i) (fun _ => false)).
  { apply W_put; [apply W0; exact V | intros t; repeat split]. }
  assert (Fo : forall j, j <> 1 -> fl b j = s_flag (aget a0 j)).
  { intros j N. unfold fl, b. rewrite put_other by exact N. reflexivity. }
  assert (F1 : fl b 1 = 1) by (unfold fl, b; rewrite put_same; reflexivity).
  assert (B : forall j, s_base (aget b j) = s_base (aget a0 j)).
  { intros j. unfold b. destruct (Z.eq_dec j 1) as [-> | N]; [rewrite put_same | rewrite put_other by exact N]; auto. }
  assert (ONE : forall j, okk j -> fl b j <> 0 -> j = 1).
  { intros j Hj Fj. destruct (Z.eq_dec j 1) as [-> | N]; [reflexivity |]. rewrite (Fo j N), (v_flag _ _ V j Hj) in Fj. lia. }
  assert (RNG : forall j, okk j -> 0 <= fl b j <= 1).
  { intros j Hj. destruct (Z.eq_dec j 1) as [-> | N]; [lia |]. rewrite (Fo j N), (v_flag _ _ V j Hj). lia. }
  assert (J : J3 1 b [] all (fun _ i => i) (fun _ => false) (fun j => j <> 1)).
  { constructor.
    - exact W'.
    - lia.
    - exact RNG.
    - intros j Hj. rewrite B. pose proof (v_base _ _ V j Hj). lia.
    - constructor.
    - intros j [].
    - intros j j' Hj Hj' Fj E. rewrite (ONE j Hj Fj), (ONE j' Hj' ltac:(congruence)). reflexivity.
    - intros j j' Hj Hj' Fj E. rewrite (ONE j Hj Fj), (ONE j' Hj' ltac:(congruence)). apply rst_refl.
    - intros j Hj Fj _ N. elim N. exact (ONE j Hj Fj).
    - intros j Hj _. apply in_all. exact Hj.
    - intros c Hc. destruct (s_eok (aget a0 1)) eqn:E1; [| lia]. exists 1. split; [split; [lia | exact E1] | lia]. }
  destruct (s_eok (aget a0 1)) eqn:E1.
  - assert (H1 : okk 1) by (split; [lia | exact E1]).
    replace (Z.to_nat (2 * nt + 2)) with (S (Z.to_nat (2 * nt + 1))) by lia.
    cbn [loop pile tr].
    destruct (process_ok _ _ _ _ _ _ _ J H1 (fun x => x)) as (a' & pl' & U' & p' & f' & E & J'' & M').
    rewrite E. cbn [bind]. apply (loop_ok _ _ _ _ _ _ _ J''). unfold work in *. rewrite all_len in M'. cbn [length] in M'. lia.
  - replace (Z.to_nat (2 * nt + 2)) with (S (Z.to_nat (2 * nt + 1))) by lia.
    cbn [loop pile tr]. unfold process. cbn [tr pile].
    rewrite chg_ok by (rewrite (v_len _ _ V); lia). cbn [bind].
    fold b. rewrite rd_ok by (unfold b; rewrite put_len, (v_len _ _ V); lia). cbn [bind].
    unfold b at 1. rewrite put_same.
    change (s_eok (set_flag 1 (aget a0 1))) with (s_eok (aget a0 1)). rewrite E1. cbn [negb bind].
    assert (J' : J3 1 b [] all (fun _ i => i) (fun _ => false) (fun _ => True)).
    { constructor; try apply J. intros j Hj Fj _ _. rewrite (ONE j Hj Fj) in Hj. destruct Hj. congruence. }
    apply (loop_ok _ _ _ _ _ _ _ J'). unfold work. rewrite all_len. cbn [length]. lia.
Qed.

End Surf.
