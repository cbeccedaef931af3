(** Paths of a reversible walk. *)
From Coq Require Import ZArith List Lia Bool.
Import ListNotations.

Section Path.
Variable (S : Type) (V : S -> Prop) (step : S -> option S) (rev : S -> S) (el : S -> Z).
Hypothesis Vstep : forall s t, V s -> step s = Some t -> V t.
Hypothesis Vrev : forall s, V s -> V (rev s).
Hypothesis Hback : forall s t, V s -> step s = Some t -> step (rev t) = Some (rev s).
Hypothesis Hinv : forall s, V s -> rev (rev s) = s.
Hypothesis Hneq : forall s, V s -> rev s <> s.
Hypothesis Hrev : forall s, V s -> el (rev s) = el s.
Hypothesis Hel : forall s t, V s -> V t -> el s = el t -> t = s \/ t = rev s.
Hypothesis Hmove : forall s t, V s -> step s = Some t -> el t <> el s.

Inductive path : S -> list S -> Prop :=
| path_one : forall s, path s []
| path_more : forall s t l, step s = Some t -> path t l -> path s (t :: l).

Lemma path_valid s l : path s l -> V s -> forall t, In t (s :: l) -> V t.
Proof.
  induction 1 as [s|s t l E P IH]; intros Vs u [<-|Hu]; auto; try (destruct Hu; fail).
  apply IH; [exact (Vstep _ _ Vs E)|exact Hu].
Qed.

Lemma path_nth s l : path s l -> forall n a b, nth_error (s :: l) n = Some a -> nth_error (s :: l) (n + 1) = Some b -> step a = Some b.
Proof.
  induction 1 as [s|s t l E P IH]; intros n a b A B; destruct n as [|n]; cbn in A, B.
  - discriminate.
  - destruct n; discriminate.
  - congruence.
  - apply (IH n); assumption.
Qed.

Lemma step_inj s t u : V s -> V t -> step s = Some u -> step t = Some u -> s = t.
Proof.
  intros Vs Vt A B. pose proof (Hback _ _ Vs A) as A'. pose proof (Hback _ _ Vt B) as B'.
  rewrite <- (Hinv s Vs), <- (Hinv t Vt). congruence.
Qed.

Lemma nth_some (l : list S) n m a : nth_error l n = Some a -> m <= n -> exists b, nth_error l m = Some b.
Proof.
  intros A L. destruct (nth_error l m) eqn:E; [eauto|]. apply nth_error_None in E.
  assert (n < length l) by (apply nth_error_Some; congruence). lia.
Qed.

(** A path never comes back in the other direction. *)
Lemma no_rev s l : path s l -> V s -> forall d n a b, nth_error (s :: l) n = Some a -> nth_error (s :: l) (n + d) = Some b -> b <> rev a.
Proof.
  intros P Vs. pose proof (path_valid _ _ P Vs) as PV. pose proof (path_nth _ _ P) as PN.
  induction d as [d IH] using lt_wf_ind. intros n a b A B E.
  assert (Va : V a) by (apply PV; eapply nth_error_In; eassumption).
  assert (Vb : V b) by (apply PV; eapply nth_error_In; eassumption).
  destruct d as [|[|d]].
  - replace (n + 0) with n in B by lia. apply (Hneq a Va). congruence.
  - specialize (PN n a b A B). apply (Hmove _ _ Va PN). subst b. apply Hrev, Va.
  - destruct (nth_some _ _ (n + 1) _ B) as [a1 A1]; [lia|]. destruct (nth_some _ _ (n + 1 + d) _ B) as [b1 B1]; [lia|].
    apply (IH d) with (n := n + 1) (a := a1) (b := b1); [lia|exact A1|exact B1|].
    assert (Va1 : V a1) by (apply PV; eapply nth_error_In; eassumption).
    assert (Vb1 : V b1) by (apply PV; eapply nth_error_In; eassumption).
    pose proof (PN _ _ _ A A1) as S1. assert (S2 : step b1 = Some b) by (apply (PN (n + 1 + d)); [exact B1|rewrite <- B; f_equal; lia]).
    pose proof (Hback _ _ Va S1) as S3. rewrite <- E in S3. apply (step_inj b1 (rev a1) b Vb1 (Vrev _ Va1) S2 S3).
Qed.

Lemma nodup_nth {A} (l : list A) : (forall i d a, nth_error l i = Some a -> nth_error l (i + 1 + d) = Some a -> False) -> NoDup l.
Proof.
  induction l as [|x l IH]; intros H; constructor.
  - intros I. apply In_nth_error in I. destruct I as [n E]. apply (H 0 n x); [reflexivity|exact E].
  - apply IH. intros i d a A1 A2. apply (H (i + 1) d a); [rewrite Nat.add_comm; exact A1|]. replace (i + 1 + 1 + d) with (Datatypes.S (i + 1 + d)) by lia. exact A2.
Qed.

(** The visited elements are different when none of them is the first one again. *)
Lemma path_nodup s l : path s l -> V s -> ~ In (el s) (map el l) -> NoDup (map el (s :: l)).
Proof.
  intros P Vs N. pose proof (path_valid _ _ P Vs) as PV. pose proof (path_nth _ _ P) as PN. pose proof (no_rev _ _ P Vs) as NR.
  apply nodup_nth. intros i. induction i as [|i IH]; intros d a A B; rewrite nth_error_map in A, B.
  - cbn [nth_error option_map] in A. injection A as <-. replace (0 + 1 + d) with (Datatypes.S d) in B by lia. cbn in B.
    destruct (nth_error l d) as [t|] eqn:E; [|discriminate]. injection B as B. apply N. rewrite <- B. apply in_map. eapply nth_error_In; eassumption.
  - destruct (nth_error (s :: l) (Datatypes.S i)) as [x|] eqn:Ex; [|discriminate]. destruct (nth_error (s :: l) (Datatypes.S i + 1 + d)) as [y|] eqn:Ey; [|discriminate].
    cbn in A, B. injection A as A. injection B as B.
    assert (Vx : V x) by (apply PV; eapply nth_error_In; eassumption). assert (Vy : V y) by (apply PV; eapply nth_error_In; eassumption).
    destruct (Hel x y Vx Vy) as [E|E]; [congruence| |].
    + destruct (nth_some _ _ i _ Ex) as [x' X']; [lia|]. destruct (nth_some _ _ (i + 1 + d) _ Ey) as [y' Y']; [lia|].
      assert (Vx' : V x') by (apply PV; eapply nth_error_In; eassumption). assert (Vy' : V y') by (apply PV; eapply nth_error_In; eassumption).
      assert (S1 : step x' = Some x) by (apply (PN i); [exact X'|rewrite <- Ex; f_equal; lia]).
      assert (S2 : step y' = Some y) by (apply (PN (i + 1 + d)); [exact Y'|rewrite <- Ey; f_equal; lia]).
      subst y. pose proof (step_inj _ _ _ Vx' Vy' S1 S2) as E2. apply (IH d (el x')); rewrite nth_error_map.
      * rewrite X'. reflexivity.
      * rewrite Y'. cbn. congruence.
    + apply (NR (1 + d) (Datatypes.S i) x y); [exact Ex|rewrite <- Ey; f_equal; lia|exact E].
Qed.

(** A path whose first element has no predecessor does not come back to it. *)
Lemma path_start s l : path s l -> V s -> step (rev s) = None -> ~ In (el s) (map el l).
Proof.
  intros P Vs N I. pose proof (path_valid _ _ P Vs) as PV. pose proof (path_nth _ _ P) as PN. pose proof (no_rev _ _ P Vs) as NR.
  apply in_map_iff in I. destruct I as (t & E & It). apply In_nth_error in It. destruct It as [n En].
  assert (Vt : V t) by (apply PV; right; eapply nth_error_In; eassumption).
  destruct (Hel s t Vs Vt) as [->| ->]; [congruence| |].
  - destruct (nth_some (s :: l) (n + 1) n s) as [u U]; [replace (n + 1) with (Datatypes.S n) by lia; exact En|lia|].
    assert (Vu : V u) by (apply PV; eapply nth_error_In; eassumption).
    assert (Su : step u = Some s) by (apply (PN n); [exact U|replace (n + 1) with (Datatypes.S n) by lia; exact En]).
    rewrite (Hback _ _ Vu Su) in N. discriminate.
  - apply (NR (Datatypes.S n) 0 s (rev s)); [reflexivity|exact En|reflexivity].
Qed.

(** The element met when a path closes is its first state. *)
Lemma path_close s l t u : path s l -> V s -> last (s :: l) s = t -> step t = Some u -> el u = el s -> u = s.
Proof.
  intros P Vs L St E.
  assert (P2 : path s (l ++ [u])).
  { clear - P L St. revert t L St. induction P as [s|s v l Sv P IH]; intros t L St.
    - cbn in L. subst t. cbn. econstructor; [exact St|constructor].
    - cbn [app]. econstructor; [exact Sv|]. apply (IH t); [|exact St]. rewrite <- L. clear. cbn [last]. destruct l as [|w l]; [reflexivity|].
      revert w. induction l as [|x l IH]; intros w; [reflexivity|]. cbn. cbn in IH. exact (IH x). }
  pose proof (path_valid _ _ P2 Vs u) as Vu. destruct (Hel s u Vs) as [H|H]; [|congruence|exact H|].
  - apply Vu. right. apply in_or_app. right. left. reflexivity.
  - exfalso. apply (no_rev _ _ P2 Vs (length (s :: l)) 0 s u); [reflexivity| |exact H].
    change (0 + length (s :: l)) with (length (s :: l)). rewrite app_comm_cons. rewrite nth_error_app2 by lia. rewrite Nat.sub_diag. reflexivity.
Qed.

Lemma path_app s l t l' : path s l -> last (s :: l) s = t -> path t l' -> path s (l ++ l').
Proof.
  intros P. revert t. induction P as [s|s v l Sv P IH]; intros t L P'.
  - cbn in L. subst t. exact P'.
  - cbn [app]. econstructor; [exact Sv|]. apply (IH t); [|exact P']. rewrite <- L. clear. cbn [last]. destruct l as [|w l]; [reflexivity|].
    revert w. induction l as [|x l IH]; intros w; [reflexivity|]. cbn. cbn in IH. exact (IH x).
Qed.

Lemma path_last_end (s : S) (l : list S) (d : S) : last (s :: l) d = last (s :: l) s.
Proof.
  revert s d. induction l as [|x l IH]; intros s d; [reflexivity|].
  change (last (x :: l) d = last (x :: l) s). rewrite (IH x d), (IH x s). reflexivity.
Qed.

(** The path read backwards. *)
Lemma path_back s l : path s l -> V s -> exists l', path (rev (last (s :: l) s)) l' /\ map el (rev (last (s :: l) s) :: l') = List.rev (map el (s :: l)) /\ last (rev (last (s :: l) s) :: l') s = rev s.
Proof.
  intros P. induction P as [s|s t l St P IH]; intros Vs.
  - exists []. cbn. split; [constructor|]. rewrite (Hrev s Vs). auto.
  - destruct (IH (Vstep _ _ Vs St)) as (l' & P' & M & L).
    assert (EL : last (s :: t :: l) s = last (t :: l) t) by (change (last (t :: l) s = last (t :: l) t); apply path_last_end).
    rewrite EL. exists (l' ++ [rev s]). split; [|split].
    + apply (path_app _ _ (rev t)); [exact P'|rewrite <- L; symmetry; apply path_last_end|]. econstructor; [apply Hback; assumption|constructor].
    + rewrite app_comm_cons, map_app, M. cbn. rewrite (Hrev s Vs). reflexivity.
    + rewrite app_comm_cons. apply last_last.
Qed.
End Path.
