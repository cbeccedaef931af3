(** Lemmas about the copies of [SolApi]. *)
From Coq Require Import ZArith List Bool Lia.
From Verif Require Import CBase SolApi.
Import ListNotations.
Open Scope Z_scope.

Section Proofs.
Context {V : Type}.
Implicit Types m : arr V.

Lemma put_ok vs : forall m b, 0 <= b -> b + Z.of_nat (length vs) <= alen m ->
  exists m', put V m b vs = Ret m' /\ alen m' = alen m /\
    forall x, x < b \/ b + Z.of_nat (length vs) <= x -> aget m' x = aget m x.
Proof.
  induction vs as [|v vs IH]; intros m b Hb Hl; cbn [put length] in *.
  - exists m. repeat split.
  - rewrite wr_ok by lia. cbn [bind].
    destruct (IH (mkArr (alen m) (upd (aget m) b v)) (b + 1)) as (m' & E & L & O); [lia | cbn; lia |].
    exists m'. split; [exact E|]. split; [exact L|]. intros x Hx. rewrite O by lia. cbn. apply upd_other. lia.
Qed.

Lemma take_ok n : forall m b, 0 <= b -> b + Z.of_nat n <= alen m ->
  exists vs, take V m b n = Ret vs /\ length vs = n.
Proof.
  induction n as [|n IH]; intros m b Hb Hl; cbn [take].
  - exists []. auto.
  - rewrite rd_ok by lia. cbn [bind]. destruct (IH m (b + 1)) as (vs & E & L); [lia | lia |].
    rewrite E. cbn [bind]. exists (aget m b :: vs). cbn. auto.
Qed.

Lemma take_eq n : forall m m' b, alen m' = alen m ->
  (forall x, b <= x < b + Z.of_nat n -> aget m' x = aget m x) -> take V m' b n = take V m b n.
Proof.
  induction n as [|n IH]; intros m m' b L H; cbn [take]; [reflexivity|].
  rewrite (IH m m' (b + 1)) by (try assumption; intros; apply H; lia).
  unfold rd, inb. rewrite L, H by lia. reflexivity.
Qed.

Lemma take_put vs : forall m b m', put V m b vs = Ret m' -> take V m' b (length vs) = Ret vs.
Proof.
  induction vs as [|v vs IH]; intros m b m' E; cbn [put take length] in *; [reflexivity|].
  apply bind_ret_inv in E. destruct E as (m1 & E1 & E). apply wr_inv in E1. destruct E1 as [Hb ->].
  pose proof (IH _ _ _ E) as T. rewrite T.
  assert (X : alen m' = alen m /\ aget m' b = v).
  { clear IH T. revert E. generalize (mkArr (alen m) (upd (aget m) b v)) (eq_refl (alen m) : alen (mkArr (alen m) (upd (aget m) b v)) = alen m)
      (upd_same (aget m) b v : aget (mkArr (alen m) (upd (aget m) b v)) b = v).
    assert (Hc : b < b + 1) by lia. revert Hc. generalize (b + 1).
    induction vs as [|w vs IH]; intros c Hc m1 L1 G1 E; cbn [put] in E.
    - inversion E. subst. auto.
    - apply bind_ret_inv in E. destruct E as (m2 & E2 & E). apply wr_inv in E2. destruct E2 as [H2 ->].
      refine (IH (c + 1) _ _ _ _ E); [lia | exact L1 |]. cbn. rewrite upd_other by lia. exact G1. }
  destruct X as [X1 X2]. rewrite rd_ok by lia. cbn [bind]. rewrite X2. reflexivity.
Qed.

Lemma put_full m b vs : 0 <= b -> b + Z.of_nat (length vs) <= alen m ->
  exists m', put V m b vs = Ret m' /\ alen m' = alen m /\ take V m' b (length vs) = Ret vs /\
    forall b' n, b' + Z.of_nat n <= b \/ b + Z.of_nat (length vs) <= b' -> take V m' b' n = take V m b' n.
Proof.
  intros Hb Hl. destruct (put_ok vs m b Hb Hl) as (m' & E & L & O).
  exists m'. split; [exact E|]. split; [exact L|]. split; [exact (take_put _ _ _ _ E)|].
  intros b' n Hn. apply take_eq; [exact L|]. intros x Hx. apply O. lia.
Qed.

(** Consecutive values of an array. *)
Definition slice (u : arr V) (b : Z) (n : nat) : list V := map (fun c => aget u (b + Z.of_nat c)) (seq 0 n).

Lemma take_slice n : forall u b, 0 <= b -> b + Z.of_nat n <= alen u -> take V u b n = Ret (slice u b n).
Proof.
  induction n as [|n IH]; intros u b Hb Hl; cbn [take]; [reflexivity|].
  rewrite rd_ok by lia. cbn [bind]. rewrite IH by lia. cbn [bind]. f_equal. unfold slice. cbn [seq map].
  rewrite Z.add_0_r. f_equal. rewrite <- seq_shift, map_map. apply map_ext. intros c. f_equal. lia.
Qed.

Lemma slice_length u b n : length (slice u b n) = n.
Proof. unfold slice. rewrite map_length, seq_length. reflexivity. Qed.

End Proofs.

Lemma ncomp_pos p k : 1 <= ncomp p k <= 6.
Proof. destruct p, k; cbn; lia. Qed.

Lemma place_all_eq p k pos : exists d, 0 <= d <= 1 /\ place_all p k pos = ncomp p k * pos - d.
Proof.
  destruct p, k; cbn [place_all ncomp]; first [exists 0; lia | exists 1; lia].
Qed.

Lemma place_eq V p k (s : sol V) pos : so_size V s = ncomp p k -> place V p k s pos = place_all p k pos.
Proof. intros E. destruct p, k; cbn [place place_all]; rewrite ?E; cbn [ncomp]; lia. Qed.

Lemma place_range p k pos np mx : 1 <= pos <= np -> np < mx ->
  0 <= place_all p k pos /\ place_all p k pos + ncomp p k <= ncomp p k * (mx + 1).
Proof.
  intros H1 H2. destruct (place_all_eq p k pos) as (d & Hd & ->). pose proof (ncomp_pos p k). nia.
Qed.

Lemma place_apart p k x y : x <> y ->
  place_all p k x + ncomp p k <= place_all p k y \/ place_all p k y + ncomp p k <= place_all p k x.
Proof. intros H. destruct p, k; cbn [place_all ncomp]; lia. Qed.

Lemma size_1 p k : Z.of_nat (Z.to_nat (ncomp p k)) = ncomp p k.
Proof. pose proof (ncomp_pos p k). lia. Qed.
