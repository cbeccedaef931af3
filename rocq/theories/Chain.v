(** Free lists threaded through an array: [chain nx p l] says that following
    [nx] from [p] visits exactly [l] and then reaches 0. *)
From Coq Require Import ZArith List Lia Bool.
From Verif Require Import CBase.
Import ListNotations.
Open Scope Z_scope.

Fixpoint chain (nx : Z -> Z) (p : Z) (l : list Z) : Prop :=
  match l with
  | [] => p = 0
  | x :: l' => p = x /\ x <> 0 /\ chain nx (nx x) l'
  end.

Lemma chain_ext nx nx' l : forall p,
  (forall s, In s l -> nx' s = nx s) -> chain nx p l -> chain nx' p l.
Proof.
  induction l as [|x l IH]; simpl; intros p H Hp; [exact Hp|].
  destruct Hp as [E [N Hp]]. split; [exact E|]. split; [exact N|].
  rewrite H by (left; reflexivity). apply IH; [|exact Hp]. intros s Hs. apply H. right. exact Hs.
Qed.

Lemma chain_det nx l1 : forall l2 p, chain nx p l1 -> chain nx p l2 -> l1 = l2.
Proof.
  induction l1 as [|x l1 IH]; destruct l2 as [|y l2]; simpl; intros p H1 H2.
  - reflexivity.
  - destruct H2 as [? [? ?]]. congruence.
  - destruct H1 as [? [? ?]]. congruence.
  - destruct H1 as [E1 [N1 H1]], H2 as [E2 [N2 H2]]. rewrite <- E1 in *. rewrite <- E2 in *.
    f_equal. eapply IH; eassumption.
Qed.

Lemma chain_suffix nx l1 : forall l2 x p, chain nx p (l1 ++ x :: l2) -> chain nx x (x :: l2).
Proof.
  induction l1 as [|y l1 IH]; simpl; intros l2 x p H.
  - destruct H as [E [N H]]. auto.
  - destruct H as [E [N H]]. apply IH in H. exact H.
Qed.

Lemma chain_nodup nx l : forall p, chain nx p l -> NoDup l.
Proof.
  induction l as [|x l IH]; intros p H; [constructor|].
  pose proof H as H0. simpl in H. destruct H as [E [N H]]. 
  constructor; [|eapply IH; exact H].
  intros Hin. apply in_split in Hin. destruct Hin as [l1 [l2 El]]. rewrite El in H.
  pose proof (chain_suffix nx l1 l2 x (nx x) H) as Hs. rewrite E in H0.
  pose proof (chain_det nx _ _ _ H0 Hs) as Eq. rewrite El in Eq.
  apply (f_equal (@length Z)) in Eq. simpl in Eq. rewrite app_length in Eq. simpl in Eq. lia.
Qed.

(** Integer intervals, both ends included. *)
Definition zrange (lo hi : Z) : list Z := map (fun i => lo + Z.of_nat i) (seq 0 (Z.to_nat (hi - lo + 1))).

Lemma in_zrange lo hi k : In k (zrange lo hi) <-> lo <= k <= hi.
Proof.
  unfold zrange. rewrite in_map_iff. split.
  - intros [i [E Hi]]. apply in_seq in Hi. lia.
  - intros H. exists (Z.to_nat (k - lo)). split; [lia|]. apply in_seq. lia.
Qed.

Lemma chain_zrange nx lo hi :
  0 < lo <= hi -> (forall k, lo <= k < hi -> nx k = k + 1) -> nx hi = 0 -> chain nx lo (zrange lo hi).
Proof.
  intros Hlo H Hhi. unfold zrange.
  remember (Z.to_nat (hi - lo + 1)) as n eqn:En.
  revert lo Hlo H En. induction n as [|n IH]; intros lo Hlo H En; cbn [seq map chain]; [lia|].
  split; [lia|]. split; [lia|]. replace (lo + Z.of_nat 0) with lo by lia.
  rewrite <- seq_shift, map_map.
  destruct (Z.eq_dec lo hi) as [->|Nh].
  - rewrite Hhi. assert (n = 0)%nat as -> by lia. reflexivity.
  - rewrite H by lia. erewrite map_ext; [apply (IH (lo + 1)); [lia | intros k Hk; apply H; lia | lia]|].
    intros i. simpl. lia.
Qed.

(** ** Free list invariant

    [n]: number of used slots, [nil]: head, [mx]: allocated slots, [occ k]: slot
    [k] is handed out.  Slot [mx] is special: the initial chaining never lists it. *)
Record FInv (nil mx : Z) (nx : Z -> Z) (occ : Z -> bool) (L : list Z) : Prop := {
  f_chain : chain nx nil L;
  f_dead : forall k, In k L -> 1 <= k <= mx /\ occ k = false;
  f_all : forall k, 1 <= k < mx -> occ k = false -> In k L;
  f_last : occ mx = false -> ~ In mx L -> nx mx = 0
}.

(** Taking the head. *)
Lemma FInv_pop nil mx nx nx' occ L :
  FInv nil mx nx occ L -> nil <> 0 -> nx' nil = 0 -> (forall k, k <> nil -> nx' k = nx k) ->
  1 <= nil <= mx /\ occ nil = false /\ exists L', L = nil :: L' /\ FInv (nx nil) mx nx' (fun k => if k =? nil then true else occ k) L'.
Proof.
  intros [H1 H2 H3 H4] Nn E0 Eo. destruct L as [|x L]; [simpl in H1; congruence|].
  pose proof (chain_nodup _ _ _ H1) as ND. inversion ND as [|a b Hni ND']; subst a b.
  simpl in H1. destruct H1 as [E [N H1]]. rewrite <- E in *.
  assert (Hr : 1 <= nil <= mx /\ occ nil = false) by (apply H2; left; reflexivity).
  split; [apply Hr|]. split; [apply Hr|]. exists L. split; [congruence|]. constructor.
  - apply chain_ext with (nx := nx); [|exact H1]. intros s Hs. apply Eo. intros ->. contradiction.
  - intros k Hk. split; [apply H2; right; exact Hk|].
    destruct (Z.eqb_spec k nil) as [->|]; [contradiction | apply H2; right; exact Hk].
  - intros k Hk Hocc. destruct (Z.eqb_spec k nil); [discriminate|].
    destruct (H3 k Hk Hocc) as [?|?]; [congruence | assumption].
  - intros Hocc Hni2. destruct (Z.eqb_spec mx nil); [discriminate|].
    rewrite Eo by auto. apply H4; [exact Hocc|]. intros [?|?]; [congruence | contradiction].
Qed.

(** Giving a slot back. *)
Lemma FInv_push nil mx nx nx' occ L i :
  FInv nil mx nx occ L -> 1 <= i <= mx -> occ i = true -> nx' i = nil -> (forall k, k <> i -> nx' k = nx k) ->
  FInv i mx nx' (fun k => if k =? i then false else occ k) (i :: L).
Proof.
  intros [H1 H2 H3 H4] Hi Ho E0 Eo.
  assert (Hni : ~ In i L) by (intros Hin; destruct (H2 i Hin); congruence).
  constructor.
  - simpl. split; [reflexivity|]. split; [lia|]. rewrite E0. apply chain_ext with (nx := nx); [|exact H1].
    intros s Hs. apply Eo. intros ->. contradiction.
  - intros k [<-|Hk].
    + rewrite Z.eqb_refl. auto.
    + destruct (H2 k Hk) as [R E]. split; [exact R|]. destruct (k =? i); auto.
  - intros k Hk Hocc. destruct (Z.eqb_spec k i) as [->|]; [left; reflexivity | right; apply H3; auto].
  - intros Hocc Hni2. destruct (Z.eqb_spec mx i) as [->|Nm]; [exfalso; apply Hni2; left; reflexivity|].
    rewrite Eo by auto. apply H4; [exact Hocc|]. intros Hin. apply Hni2. right. exact Hin.
Qed.

(** (Re)building the chain above [n]. *)
Lemma FInv_relink n mx nx occ :
  0 <= n < mx -> (forall k, occ k = true <-> 1 <= k <= n) ->
  (forall k, n + 1 <= k < mx - 1 -> nx k = k + 1) -> (forall k, n + 1 <= k <= mx -> mx - 1 <= k -> nx k = 0) ->
  FInv (n + 1) mx nx occ (zrange (n + 1) (Z.max (n + 1) (mx - 1))).
Proof.
  intros Hn Hocc H1 H2.
  assert (Hf : forall k, occ k = false -> ~ 1 <= k <= n).
  { intros k E H. apply Hocc in H. congruence. }
  assert (Hf2 : forall k, n < k -> occ k = false).
  { intros k H. destruct (occ k) eqn:E; [apply Hocc in E; lia | reflexivity]. }
  constructor.
  - apply chain_zrange; [lia | intros k Hk; apply H1; lia | apply H2; lia].
  - intros k Hk. apply in_zrange in Hk. split; [lia | apply Hf2; lia].
  - intros k Hk E. apply in_zrange. apply Hf in E. lia.
  - intros E Hni. apply H2; lia.
Qed.

(** Contents of occupied slots may be rewritten freely. *)
Lemma FInv_frame nil mx nx nx' occ L :
  FInv nil mx nx occ L -> (forall k, occ k = false -> nx' k = nx k) -> FInv nil mx nx' occ L.
Proof.
  intros [H1 H2 H3 H4] E. constructor; auto.
  - apply chain_ext with (nx := nx); [|exact H1]. intros s Hs. apply E. apply H2. exact Hs.
  - intros Ho Hni. rewrite E by exact Ho. auto.
Qed.

Lemma FInv_ext nil mx nx occ occ' L :
  FInv nil mx nx occ L -> (forall k, occ' k = occ k) -> FInv nil mx nx occ' L.
Proof.
  intros [H1 H2 H3 H4] E. constructor; auto.
  - intros k Hk. rewrite E. auto.
  - intros k Hk. rewrite E. auto.
  - rewrite E. auto.
Qed.

(** ** Trimming: [while ( !ok(a\[n\]) && n ) n--] (zaldy_3d.c:94-96, 140-142) *)
Fixpoint trim {A} (ok : A -> bool) (fuel : nat) (a : arr A) (n : Z) : outcome Z :=
  match fuel with
  | O => Stuck
  | S f => x <- rd a n ;;
           if ok x then Ret n else if n =? 0 then Ret n else trim ok f a (n - 1)
  end.

Lemma trim_spec A (ok : A -> bool) (a : arr A) : forall fuel n,
  0 <= n < alen a -> (Z.to_nat n < fuel)%nat ->
  exists m, trim ok fuel a n = Ret m /\ 0 <= m <= n /\ (0 < m -> ok (aget a m) = true)
            /\ forall k, m < k <= n -> ok (aget a k) = false.
Proof.
  induction fuel as [|f IH]; intros n Hn Hf; [lia|]. cbn [trim].
  rewrite rd_ok by lia. cbn [bind]. destruct (ok (aget a n)) eqn:E.
  - exists n. split; [reflexivity|]. split; [lia|]. split; [intros _; exact E | intros; lia].
  - destruct (Z.eqb_spec n 0) as [->|Nz].
    + exists 0. split; [reflexivity|]. split; [lia|]. split; intros; lia.
    + destruct (IH (n - 1)) as [m [E1 [R [O F]]]]; [lia|lia|].
      exists m. split; [exact E1|]. split; [lia|]. split; [exact O|].
      intros k Hk. destruct (Z.eq_dec k n) as [->|]; [exact E | apply F; lia].
Qed.
