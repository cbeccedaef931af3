(** The renumbering realised by the packing loops: holes are filled, in increasing
    order, with the last used entries, in decreasing order. *)
From Coq Require Import ZArith List Lia Bool.
From Verif Require Import CBase Chain.
Import ListNotations.
Open Scope Z_scope.

Section Plan.
Variable ok : Z -> bool.

(** Last used index in (k,l], or k. *)
Fixpoint down (fuel : nat) (k l : Z) : Z :=
  match fuel with
  | O => k
  | S f => if l <=? k then k else if ok l then l else down f k (l - 1)
  end.

(** Sources of the slots k, k+1, ...; [l] is the last used index. *)
Fixpoint plan (fuel : nat) (k l : Z) : list Z :=
  match fuel with
  | O => []
  | S f =>
    if l <? k then []
    else if ok k then k :: plan f (k + 1) l
    else l :: plan f (k + 1) (down (Z.to_nat (l - k)) k (l - 1))
  end.

Lemma down_spec : forall fuel k l,
  (Z.to_nat (l - k) <= fuel)%nat -> k <= l ->
  k <= down fuel k l <= l /\ (down fuel k l = k \/ ok (down fuel k l) = true) /\
  (forall j, down fuel k l < j <= l -> ok j = false).
Proof.
  induction fuel as [|f IH]; intros k l Hf Hk; cbn [down].
  - assert (l = k) by lia. split; [lia|]. split; [left; reflexivity|]. intros; lia.
  - destruct (Z.leb_spec l k).
    + split; [lia|]. split; [left; reflexivity|]. intros; lia.
    + destruct (ok l) eqn:E.
      * split; [lia|]. split; [right; exact E|]. intros; lia.
      * destruct (IH k (l - 1)) as [A [B C]]; [lia|lia|]. split; [lia|]. split; [exact B|].
        intros j Hj. destruct (Z.eq_dec j l) as [->|]; [exact E | apply C; lia].
Qed.

(** [down] is determined by this description. *)
Lemma down_unique fuel k l d :
  (Z.to_nat (l - k) <= fuel)%nat -> k <= d <= l -> (d = k \/ ok d = true) ->
  (forall j, d < j <= l -> ok j = false) -> down fuel k l = d.
Proof.
  intros Hf Hd Ho Hn. destruct (down_spec fuel k l Hf ltac:(lia)) as [A [B C]].
  set (e := down fuel k l) in *. destruct (Z.lt_trichotomy e d) as [H|[H|H]]; [|exact H|].
  - destruct Ho as [->|Ho]; [lia|]. rewrite C in Ho by lia. discriminate.
  - destruct B as [B|B]; [lia|]. rewrite Hn in B by lia. discriminate.
Qed.

Definition live_end (k l : Z) : Prop := l < k \/ ok l = true.

Lemma plan_in : forall fuel k l, (Z.to_nat (l - k + 1) <= fuel)%nat -> live_end k l ->
  forall s, In s (plan fuel k l) <-> k <= s <= l /\ ok s = true.
Proof.
  induction fuel as [|f IH]; intros k l Hf He s; cbn [plan].
  - split; [intros []|lia].
  - destruct (Z.ltb_spec l k); [split; [intros [] | lia]|].
    destruct He as [He|He]; [lia|].
    destruct (ok k) eqn:Ek.
    + cbn [In]. rewrite IH; [|lia|right; exact He]. split.
      * intros [<-|[A B]]; [split; [lia|exact Ek] | split; [lia|exact B]].
      * intros [A B]. destruct (Z.eq_dec k s); [left; assumption | right; split; [lia|exact B]].
    + assert (Nkl : k <> l) by (intros ->; congruence).
      destruct (down_spec (Z.to_nat (l - k)) k (l - 1)) as [A [B C]]; [lia|lia|].
      set (d := down _ _ _) in *. cbn [In]. rewrite IH.
      * split.
        -- intros [<-|[D E]]; [split; [lia|exact He] | split; [lia|exact E]].
        -- intros [D E]. destruct (Z.eq_dec l s); [left; assumption|]. right. split; [|exact E].
           assert (s <> k) by (intros ->; congruence). split; [lia|].
           destruct (Z_le_gt_dec s d); [assumption|]. rewrite C in E by lia. discriminate.
      * lia.
      * destruct B as [B|B]; [left; lia | right; exact B].
Qed.

Lemma plan_nodup : forall fuel k l, (Z.to_nat (l - k + 1) <= fuel)%nat -> live_end k l -> NoDup (plan fuel k l).
Proof.
  induction fuel as [|f IH]; intros k l Hf He; cbn [plan]; [constructor|].
  destruct (Z.ltb_spec l k); [constructor|].
  destruct He as [He|He]; [lia|].
  destruct (ok k) eqn:Ek.
  - constructor; [|apply IH; [lia|right; exact He]].
    intros Hin. apply plan_in in Hin; [lia | lia | right; exact He].
  - assert (Nkl : k <> l) by (intros ->; congruence).
    destruct (down_spec (Z.to_nat (l - k)) k (l - 1)) as [A [B C]]; [lia|lia|].
    set (d := down _ _ _) in *.
    assert (Hd : live_end (k + 1) d) by (destruct B as [B|B]; [left; lia | right; exact B]).
    constructor; [|apply IH; [lia|exact Hd]].
    intros Hin. apply plan_in in Hin; [lia | lia | exact Hd].
Qed.

Definition plen (l : list Z) : Z := Z.of_nat (length l).

Lemma plan_ge : forall fuel k l j, (Z.to_nat (l - k + 1) <= fuel)%nat -> live_end k l ->
  0 <= j < plen (plan fuel k l) -> k + j <= nth (Z.to_nat j) (plan fuel k l) 0 <= l.
Proof.
  unfold plen. induction fuel as [|f IH]; intros k l j Hf He; cbn [plan]; [cbn; lia|].
  destruct (Z.ltb_spec l k); [cbn; lia|].
  destruct He as [He|He]; [lia|].
  assert (Hnth : forall x (r : list Z), 0 < j -> nth (Z.to_nat j) (x :: r) 0 = nth (Z.to_nat (j - 1)) r 0).
  { intros x r Hj. replace (Z.to_nat j) with (S (Z.to_nat (j - 1))) by lia. reflexivity. }
  destruct (ok k) eqn:Ek.
  - cbn [length]. intros Hj. destruct (Z.eq_dec j 0) as [->|]; [cbn; lia|].
    rewrite Hnth by lia. pose proof (IH (k + 1) l (j - 1) ltac:(lia) (or_intror He) ltac:(lia)). lia.
  - assert (Nkl : k <> l) by (intros ->; congruence).
    destruct (down_spec (Z.to_nat (l - k)) k (l - 1)) as [A [B C]]; [lia|lia|].
    set (d := down _ _ _) in *.
    assert (Hd : live_end (k + 1) d) by (destruct B as [B|B]; [left; lia | right; exact B]).
    cbn [length]. intros Hj. destruct (Z.eq_dec j 0) as [->|]; [cbn; lia|].
    rewrite Hnth by lia. pose proof (IH (k + 1) d (j - 1) ltac:(lia) Hd ltac:(lia)). lia.
Qed.

Lemma plan_len fuel k l : (Z.to_nat (l - k + 1) <= fuel)%nat -> live_end k l -> plen (plan fuel k l) <= Z.max 0 (l - k + 1).
Proof.
  intros Hf He. destruct (Z_le_gt_dec (plen (plan fuel k l)) 0); [lia|].
  pose proof (plan_ge fuel k l (plen (plan fuel k l) - 1) Hf He ltac:(lia)). lia.
Qed.

(** More fuel does not change the plan. *)
Lemma plan_fuel : forall f1 f2 k l, (Z.to_nat (l - k + 1) <= f1)%nat -> (Z.to_nat (l - k + 1) <= f2)%nat -> live_end k l ->
  plan f1 k l = plan f2 k l.
Proof.
  induction f1 as [|f1 IH]; intros [|f2] k l H1 H2 He; cbn [plan].
  - reflexivity.
  - destruct (Z.ltb_spec l k); [reflexivity|lia].
  - destruct (Z.ltb_spec l k); [reflexivity|lia].
  - destruct (Z.ltb_spec l k); [reflexivity|]. destruct He as [He|He]; [lia|].
    destruct (ok k) eqn:Ek.
    + f_equal. apply IH; [lia|lia|right; exact He].
    + assert (Nkl : k <> l) by (intros ->; congruence).
      destruct (down_spec (Z.to_nat (l - k)) k (l - 1)) as [A [B C]]; [lia|lia|].
      f_equal. apply IH; [lia|lia|]. destruct B as [B|B]; [left; lia | right; exact B].
Qed.

End Plan.

(** The plan depends only on the values of [ok] in the range. *)
Lemma down_ext ok ok' : forall fuel k l, (forall j, k < j <= l -> ok j = ok' j) -> down ok fuel k l = down ok' fuel k l.
Proof.
  induction fuel as [|f IH]; intros k l H; cbn [down]; [reflexivity|].
  destruct (Z.leb_spec l k); [reflexivity|]. rewrite <- (H l) by lia. destruct (ok l); [reflexivity|]. apply IH. intros j Hj. apply H. lia.
Qed.

Lemma plan_ext ok ok' : forall fuel k l, (forall j, k <= j <= l -> ok j = ok' j) -> (Z.to_nat (l - k + 1) <= fuel)%nat -> live_end ok k l ->
  plan ok fuel k l = plan ok' fuel k l.
Proof.
  induction fuel as [|f IH]; intros k l H Hf He; cbn [plan]; [reflexivity|].
  destruct (Z.ltb_spec l k); [reflexivity|]. rewrite <- (H k) by lia. destruct He as [He|He]; [lia|].
  destruct (ok k) eqn:Ek.
  - f_equal. apply IH; [intros; apply H; lia|lia|right; exact He].
  - assert (Nkl : k <> l) by (intros ->; congruence).
    rewrite <- (down_ext ok ok' _ k (l - 1)) by (intros; apply H; lia).
    destruct (down_spec ok (Z.to_nat (l - k)) k (l - 1)) as [A [B C]]; [lia|lia|].
    f_equal. apply IH; [intros; apply H; lia|lia|]. destruct B as [B|B]; [left; lia | right; exact B].
Qed.

(** The [j]th source, numbered from 1. *)
Definition src (l : list Z) (j : Z) : Z := nth (Z.to_nat (j - 1)) l 0.

Lemma src_in l j : 1 <= j <= plen l -> In (src l j) l.
Proof. unfold src, plen. intros H. apply nth_In. lia. Qed.

Lemma src_inj l i j : NoDup l -> 1 <= i <= plen l -> 1 <= j <= plen l -> src l i = src l j -> i = j.
Proof.
  unfold src, plen. intros N Hi Hj E. rewrite NoDup_nth in N.
  assert (Z.to_nat (i - 1) = Z.to_nat (j - 1)) by (eapply N; [lia|lia|exact E]). lia.
Qed.

Lemma src_of l s : In s l -> exists j, 1 <= j <= plen l /\ src l j = s.
Proof.
  intros H. destruct (In_nth l s 0 H) as [n [Hn E]]. exists (Z.of_nat n + 1). unfold src, plen.
  split; [lia|]. replace (Z.to_nat (Z.of_nat n + 1 - 1)) with n by lia. exact E.
Qed.
