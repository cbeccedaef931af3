(** Correctness of the in place permutation and of the steps of the renumbering. *)
From Coq Require Import ZArith QArith List Lia Bool Permutation.
From Coq Require Import ZifyBool ZifyNat.
From Verif Require Import CBase Chain MeshModel PoolModel PackModel AdjaModel RnbModel BdryProofs PoolProofs.
Import ListNotations.
Open Scope Z_scope.

(** Transposition. *)
Definition tr (i j k : Z) : Z := if k =? i then j else if k =? j then i else k.

Lemma tr_tr i j k : tr i j (tr i j k) = k.
Proof.
  unfold tr. destruct (Z.eqb_spec k i) as [->|].
  - destruct (Z.eqb_spec j i); [lia|]. rewrite Z.eqb_refl. reflexivity.
  - destruct (Z.eqb_spec k j) as [->|]; [rewrite Z.eqb_refl; reflexivity|].
    destruct (Z.eqb_spec k i), (Z.eqb_spec k j); lia.
Qed.
Lemma tr_range i j k n : 1 <= i <= n -> 1 <= j <= n -> 1 <= k <= n -> 1 <= tr i j k <= n.
Proof. unfold tr. intros. destruct (Z.eqb_spec k i), (Z.eqb_spec k j); lia. Qed.

Lemma swap2_ok A (a : arr A) i j :
  0 <= i < alen a -> 0 <= j < alen a ->
  exists a', swap2 a i j = Ret a' /\ alen a' = alen a /\ forall k, aget a' k = aget a (tr i j k).
Proof.
  intros Hi Hj. unfold swap2. rewrite !rd_ok by lia. cbn [bind]. rewrite wr_ok by lia. cbn [bind].
  rewrite wr_ok by (cbn [alen]; lia). eexists. split; [reflexivity|]. cbn [alen aget]. split; [reflexivity|].
  intros k. unfold upd, tr. destruct (Z.eqb_spec k i), (Z.eqb_spec k j); subst; reflexivity.
Qed.

Lemma filter_lt (f g : Z -> bool) x0 (l : list Z) :
  (forall x, In x l -> g x = true -> f x = true) -> In x0 l -> f x0 = true -> g x0 = false ->
  (length (filter g l) < length (filter f l))%nat.
Proof.
  intros H. induction l as [|x l IH]; intros Hin Hf Hg; [destruct Hin|].
  assert (Hle : (length (filter g l) <= length (filter f l))%nat).
  { clear - H. induction l as [|y l IH]; [reflexivity|]. cbn [filter].
    assert ((length (filter g l) <= length (filter f l))%nat) by (apply IH; intros z [->|Hz]; apply H; cbn; auto).
    destruct (g y) eqn:Eg; [rewrite (H y) by (cbn; auto); cbn; lia | destruct (f y); cbn; lia]. }
  cbn [filter]. destruct Hin as [->|Hin].
  - rewrite Hf, Hg. cbn. lia.
  - assert ((length (filter g l) < length (filter f l))%nat) by (apply IH; auto; intros z Hz; apply H; cbn; auto).
    destruct (g x) eqn:Eg; [rewrite (H x) by (cbn; auto); cbn; lia | destruct (f x); cbn; lia].
Qed.

Section Permute.
Variable X : Type.
Variable swap : X -> Z -> Z -> outcome X.
Variable n : Z.
Variable R : X -> (Z -> Z) -> Prop.
Hypothesis Rswap : forall x o i j, R x o -> 1 <= i <= n -> 1 <= j <= n -> i <> j ->
  exists x', swap x i j = Ret x' /\ R x' (fun k => o (tr i j k)).
Variable p0 : Z -> Z.
Hypothesis p0_range : forall k, 1 <= k <= n -> 0 <= p0 k <= n.
Hypothesis p0_inj : forall k l, 1 <= k <= n -> 1 <= l <= n -> p0 k = p0 l -> p0 k <> 0 -> k = l.

Record PI (x : X) (p : arr Z) (o oi : Z -> Z) : Prop := {
  pi_len : n < alen p;
  pi_R : R x o;
  pi_o : forall k, 1 <= k <= n -> 1 <= o k <= n /\ oi (o k) = k;
  pi_oi : forall k, 1 <= k <= n -> 1 <= oi k <= n /\ o (oi k) = k;
  pi_p : forall k, 1 <= k <= n -> aget p k = p0 (o k)
}.
Definition off (p : arr Z) (k : Z) : bool := negb (aget p k =? k) && negb (aget p k =? 0).
Definition mis (p : arr Z) : nat := length (filter (off p) (zrange 1 n)).

Lemma PI_inj x p o oi k l :
  PI x p o oi -> 1 <= k <= n -> 1 <= l <= n -> aget p k = aget p l -> aget p k <> 0 -> k = l.
Proof.
  intros H Hk Hl E N. rewrite (pi_p _ _ _ _ H) in E, N by assumption. rewrite (pi_p _ _ _ _ H l) in E by assumption.
  destruct (pi_o _ _ _ _ H k Hk) as [A1 A2]. destruct (pi_o _ _ _ _ H l Hl) as [B1 B2].
  pose proof (p0_inj _ _ A1 B1 E N). congruence.
Qed.

Lemma PI_swap x p o oi k :
  PI x p o oi -> 1 <= k <= n -> off p k = true ->
  exists x' p' o' oi', swap x k (aget p k) = Ret x' /\ swap2 p k (aget p k) = Ret p' /\ PI x' p' o' oi' /\
    (mis p' < mis p)%nat /\ forall i, 1 <= i <= n -> off p i = false -> off p' i = false.
Proof.
  intros H Hk Ho. set (j := aget p k).
  assert (Hj : 1 <= j <= n).
  { unfold j. unfold off in Ho. rewrite (pi_p _ _ _ _ H) in * by assumption.
    destruct (pi_o _ _ _ _ H k Hk) as [A1 _]. pose proof (p0_range _ A1). lia. }
  assert (Nj : k <> j) by (unfold off in Ho; unfold j; lia).
  destruct (Rswap x o k j (pi_R _ _ _ _ H) Hk Hj Nj) as [x' [E1 R1]].
  destruct (swap2_ok _ p k j) as [p' [E2 [L2 G2]]]; [pose proof (pi_len _ _ _ _ H); lia | pose proof (pi_len _ _ _ _ H); lia|].
  exists x', p', (fun i => o (tr k j i)), (fun i => tr k j (oi i)).
  split; [exact E1|]. split; [exact E2|].
  assert (Hpj : off p' j = false).
  { unfold off. rewrite G2. unfold tr. destruct (Z.eqb_spec j k); [lia|]. rewrite Z.eqb_refl. fold j. lia. }
  assert (Hof : forall i, i <> k -> i <> j -> off p' i = off p i).
  { intros i Ni Nij. unfold off. rewrite G2. unfold tr. destruct (Z.eqb_spec i k); [lia|].
    destruct (Z.eqb_spec i j); [lia|]. reflexivity. }
  assert (Hsub : forall i, off p' i = true -> off p i = true).
  { intros i Hi. destruct (Z.eq_dec i k) as [->|Ni]; [exact Ho|].
    destruct (Z.eq_dec i j) as [->|Nij]; [congruence|]. rewrite <- Hof by assumption. exact Hi. }
  split; [|split].
  - constructor.
    + pose proof (pi_len _ _ _ _ H). lia.
    + exact R1.
    + intros i Hi. pose proof (tr_range k j i n Hk Hj Hi) as Ht.
      destruct (pi_o _ _ _ _ H _ Ht) as [A1 A2]. split; [exact A1|]. rewrite A2. apply tr_tr.
    + intros i Hi. destruct (pi_oi _ _ _ _ H i Hi) as [A1 A2].
      split; [apply tr_range; assumption|]. rewrite tr_tr. exact A2.
    + intros i Hi. rewrite G2. apply (pi_p _ _ _ _ H). apply tr_range; assumption.
  - unfold mis. destruct (off p j) eqn:Ej.
    + apply (filter_lt (off p) (off p') j); auto. apply in_zrange. lia.
    + assert (aget p j = 0).
      { assert (aget p j <> j).
        { intros E. apply Nj. apply (PI_inj x p o oi k j H Hk Hj); fold j; lia. }
        unfold off in Ej. lia. }
      apply (filter_lt (off p) (off p') k); auto; [apply in_zrange; lia|].
      unfold off. rewrite G2. unfold tr. rewrite Z.eqb_refl. lia.
  - intros i Hi E. destruct (off p' i) eqn:E'; [|reflexivity]. apply Hsub in E'. congruence.
Qed.

Lemma fix_slot_ok k : 1 <= k <= n -> forall fuel x p o oi,
  PI x p o oi -> (mis p < fuel)%nat ->
  exists x' p' o' oi', fix_slot fuel swap k (x, p) = Ret (x', p') /\ PI x' p' o' oi' /\ off p' k = false /\
    forall i, 1 <= i <= n -> off p i = false -> off p' i = false.
Proof.
  intros Hk. induction fuel as [|fuel IH]; intros x p o oi H Hf; [lia|]. cbn [fix_slot fst snd].
  rewrite rd_ok by (pose proof (pi_len _ _ _ _ H); lia). cbn [bind].
  destruct (off p k) eqn:Eo.
  - replace ((aget p k =? k) || (aget p k =? 0)) with false by (unfold off in Eo; lia).
    destruct (PI_swap x p o oi k H Hk Eo) as [x1 [p1 [o1 [oi1 [E1 [E2 [H1 [M1 K1]]]]]]]].
    rewrite E1. cbn [bind]. rewrite E2. cbn [bind].
    destruct (IH x1 p1 o1 oi1 H1 ltac:(lia)) as [x2 [p2 [o2 [oi2 [E [H2 [F2 K2]]]]]]].
    exists x2, p2, o2, oi2. repeat (split; [assumption|]). intros i Hi Ei. apply K2; auto.
  - replace ((aget p k =? k) || (aget p k =? 0)) with true by (unfold off in Eo; lia).
    exists x, p, o, oi. auto.
Qed.

Lemma permute_ok x p :
  0 <= n -> n < alen p -> (forall k, 1 <= k <= n -> aget p k = p0 k) -> R x (fun k => k) ->
  exists x' p' o, permute n swap x p = Ret (x', p') /\ R x' o /\
    (forall k, 1 <= k <= n -> 1 <= o k <= n) /\
    (forall k l, 1 <= k <= n -> 1 <= l <= n -> o k = o l -> k = l) /\
    (forall k, 1 <= k <= n -> p0 k <> 0 -> o (p0 k) = k) /\
    (forall k, 1 <= k <= n -> p0 (o k) <> 0 -> p0 (o k) = k).
Proof.
  intros Hn Hl Hp HR. unfold permute.
  destruct (@for_range_inv (X * arr Z) (fun k st => exists o oi, PI (fst st) (snd st) o oi /\
     forall i, 1 <= i < k -> off (snd st) i = false)
     (fun k st => fix_slot (S (Z.to_nat n)) swap k st) 1 n (x, p)) as [[x' p'] [E [o [oi [H K]]]]].
  - lia.
  - exists (fun k => k), (fun k => k). split; [|intros; lia]. constructor; cbn [fst snd]; auto.
  - intros k [x1 p1] Hk [o [oi [H K]]]. cbn [fst snd] in *.
    destruct (fix_slot_ok k Hk (S (Z.to_nat n)) x1 p1 o oi H) as [x2 [p2 [o2 [oi2 [E [H2 [F2 K2]]]]]]].
    { unfold mis. pose proof (filter_len _ (off p1) (zrange 1 n)) as FL.
      assert (length (zrange 1 n) = Z.to_nat n) by (unfold zrange; rewrite map_length, seq_length; lia). lia. }
    exists (x2, p2). split; [exact E|]. exists o2, oi2. split; [exact H2|]. intros i Hi.
    destruct (Z.eq_dec i k) as [->|]; [exact F2|]. apply K2; [lia|]. apply K. lia.
  - exists x', p', o. cbn [fst snd] in *. split; [exact E|]. split; [apply (pi_R _ _ _ _ H)|].
    assert (Hfix : forall k, 1 <= k <= n -> p0 (o k) <> 0 -> p0 (o k) = k).
    { intros k Hk N. specialize (K k ltac:(lia)). unfold off in K.
      rewrite (pi_p _ _ _ _ H k Hk) in K. lia. }
    split; [intros k Hk; apply (pi_o _ _ _ _ H k Hk)|]. split; [|split; [|exact Hfix]].
    + intros k l Hk Hl2 Eq. destruct (pi_o _ _ _ _ H k Hk) as [_ A]. destruct (pi_o _ _ _ _ H l Hl2) as [_ B]. congruence.
    + intros k Hk N. destruct (pi_oi _ _ _ _ H k Hk) as [A B].
      pose proof (Hfix (oi k) A) as F. rewrite B in F. rewrite F by exact N. exact B.
Qed.
End Permute.

(** ** Swaps of the vertex data *)

Lemma divmod_eq s q r : 0 <= r < s -> (q * s + r) / s = q /\ (q * s + r) mod s = r.
Proof.
  intros H. split.
  - rewrite Z.add_comm, Z.div_add by lia. rewrite Z.div_small by lia. lia.
  - rewrite Z.add_comm, Z.mod_add by lia. apply Z.mod_small. lia.
Qed.

Lemma swap_field_ok f N i j :
  1 <= fsz f <= 9 -> fsz f * (N + 1) <= alen (fval f) -> 0 <= i <= N -> 0 <= j <= N -> i <> j ->
  exists f', swap_field f i j = Ret f' /\ fsz f' = fsz f /\ alen (fval f') = alen (fval f) /\
    forall k c, 0 <= c < fsz f -> aget (fval f') (k * fsz f + c) = aget (fval f) (tr i j k * fsz f + c).
Proof.
  intros Hs Hl Hi Hj Nij. unfold swap_field, c_assert. destruct (Z.leb_spec (fsz f) 9); [|lia]. cbn [bind].
  set (s := fsz f) in *.
  destruct (@for_range_inv (arr Q) (fun c a => alen a = alen (fval f) /\
     forall k d, 0 <= d < s -> aget a (k * s + d) = aget (fval f) ((if d <? c then tr i j k else k) * s + d))
     (fun c a => swap2 a (i * s + c) (j * s + c)) 0 (s - 1) (fval f)) as [a [E [L G]]].
  - lia.
  - split; [reflexivity|]. intros k d Hd. destruct (Z.ltb_spec d 0); [lia|]. reflexivity.
  - intros c a Hc [L G]. destruct (swap2_ok _ a (i * s + c) (j * s + c)) as [a' [E' [L' G']]]; [nia|nia|].
    exists a'. split; [exact E'|]. split; [congruence|]. intros k d Hd. rewrite G'.
    destruct (divmod_eq s k d Hd) as [D1 D2].
    assert (Eq : forall q, k * s + d = q * s + c <-> k = q /\ d = c).
    { intros q. split; [|intros [-> ->]; reflexivity]. intros E. destruct (divmod_eq s q c ltac:(lia)) as [D3 D4].
      rewrite <- E in D3, D4. split; congruence. }
    destruct (Z.eq_dec d c) as [->|Nd].
    + destruct (Z.ltb_spec c (c + 1)); [|lia]. unfold tr at 1.
      destruct (Z.eqb_spec (k * s + c) (i * s + c)) as [Ei|Ni].
      * apply Eq in Ei. destruct Ei as [-> _]. rewrite G by lia. destruct (Z.ltb_spec c c); [lia|].
        unfold tr. rewrite Z.eqb_refl. reflexivity.
      * assert (k <> i) by (intros ->; lia).
        destruct (Z.eqb_spec (k * s + c) (j * s + c)) as [Ej|Nj].
        -- apply Eq in Ej. destruct Ej as [-> _]. rewrite G by lia. destruct (Z.ltb_spec c c); [lia|].
           unfold tr. destruct (Z.eqb_spec j i); [lia|]. rewrite Z.eqb_refl. reflexivity.
        -- assert (k <> j) by (intros ->; lia). rewrite G by lia. destruct (Z.ltb_spec c c); [lia|].
           unfold tr. destruct (Z.eqb_spec k i); [lia|]. destruct (Z.eqb_spec k j); [lia|]. reflexivity.
    + unfold tr at 1. destruct (Z.eqb_spec (k * s + d) (i * s + c)) as [Ei|_]; [apply Eq in Ei; lia|].
      destruct (Z.eqb_spec (k * s + d) (j * s + c)) as [Ej|_]; [apply Eq in Ej; lia|].
      rewrite G by lia. destruct (Z.ltb_spec d c), (Z.ltb_spec d (c + 1)); reflexivity || lia.
  - rewrite E. cbn [bind]. eexists. split; [reflexivity|]. cbn [fsz fval]. split; [reflexivity|]. split; [exact L|].
    intros k c Hc. rewrite G by lia. replace (s - 1 + 1) with s by lia. destruct (Z.ltb_spec c s); [reflexivity|lia].
Qed.

(** The field [f] is [f0] with the blocks of the vertices moved. *)
Definition fmoved (n : Z) (f0 f : field) (o : Z -> Z) : Prop :=
  fsz f = fsz f0 /\ alen (fval f) = alen (fval f0) /\
  forall k c, 1 <= k <= n -> 0 <= c < fsz f0 -> aget (fval f) (k * fsz f0 + c) = aget (fval f0) (o k * fsz f0 + c).
Definition field_ok (n : Z) (f : field) : Prop := 1 <= fsz f <= 9 /\ fsz f * (n + 1) <= alen (fval f).

Lemma swap_fields_ok n i j o : 1 <= i <= n -> 1 <= j <= n -> i <> j -> forall l0 l,
  Forall (field_ok n) l0 -> Forall2 (fun f0 f => fmoved n f0 f o) l0 l ->
  exists l', swap_fields l i j = Ret l' /\ Forall2 (fun f0 f => fmoved n f0 f (fun k => o (tr i j k))) l0 l'.
Proof.
  intros Hi Hj Nij l0 l Hok H. induction H as [|f0 f l0 l [H1 [H2 H3]] H IH].
  - exists []. split; [reflexivity | constructor].
  - inversion Hok as [|a b [A1 A2] Hok']; subst. destruct (IH Hok') as [l' [E' H']].
    destruct (swap_field_ok f n i j) as [f' [E [S' [L' G']]]]; [lia | rewrite H1, H2; lia | lia | lia | exact Nij |].
    exists (f' :: l'). cbn [swap_fields]. rewrite E. cbn [bind]. rewrite E'. cbn [bind]. split; [reflexivity|].
    constructor; [|exact H']. split; [congruence|]. split; [congruence|].
    intros k c Hk Hc. rewrite H1 in G'. rewrite G' by lia. apply H3; [apply tr_range; assumption | exact Hc].
Qed.

Definition nodR (n : Z) (pt0 : arr point) (l0 : list field) (x : arr point * list field) (o : Z -> Z) : Prop :=
  alen (fst x) = alen pt0 /\ (forall k, 1 <= k <= n -> aget (fst x) k = aget pt0 (o k)) /\
  (forall k, ~ 1 <= k <= n -> aget (fst x) k = aget pt0 k) /\
  Forall2 (fun f0 f => fmoved n f0 f o) l0 (snd x).
Lemma nodR_swap n pt0 l0 : n < alen pt0 -> Forall (field_ok n) l0 -> forall x o i j,
  nodR n pt0 l0 x o -> 1 <= i <= n -> 1 <= j <= n -> i <> j ->
  exists x', swap_nod x i j = Ret x' /\ nodR n pt0 l0 x' (fun k => o (tr i j k)).
Proof.
  intros Hn Hok [pt l] o i j [H1 [H2 [H2' H3]]] Hi Hj Nij. cbn [fst snd] in *. unfold swap_nod. cbn [fst snd].
  destruct (swap2_ok _ pt i j) as [pt' [E [L G]]]; [lia|lia|].
  destruct (swap_fields_ok n i j o Hi Hj Nij l0 l Hok H3) as [l' [E' H']].
  rewrite E. cbn [bind]. rewrite E'. cbn [bind]. eexists. split; [reflexivity|].
  split; cbn [fst snd]; [congruence|]. split; [|split; [|exact H']].
  - intros k Hk. rewrite G. apply H2. apply tr_range; assumption.
  - intros k Hk. rewrite G. unfold tr. destruct (Z.eqb_spec k i); [lia|]. destruct (Z.eqb_spec k j); [lia|]. auto.
Qed.

Definition tetR (n : Z) (a0 : arr tetra) (x : arr tetra) (o : Z -> Z) : Prop :=
  alen x = alen a0 /\ (forall k, 1 <= k <= n -> aget x k = aget a0 (o k)) /\
  (forall k, ~ 1 <= k <= n -> aget x k = aget a0 k).
Lemma tetR_swap n a0 : n < alen a0 -> forall x o i j,
  tetR n a0 x o -> 1 <= i <= n -> 1 <= j <= n -> i <> j ->
  exists x', swap_tet x i j = Ret x' /\ tetR n a0 x' (fun k => o (tr i j k)).
Proof.
  intros Hn x o i j [H1 [H2 H3]] Hi Hj Nij. unfold swap_tet.
  destruct (swap2_ok _ x i j) as [x' [E [L G]]]; [lia|lia|]. exists x'. split; [exact E|].
  split; [congruence|]. split; intros k Hk; rewrite G.
  - apply H2. apply tr_range; assumption.
  - unfold tr. destruct (Z.eqb_spec k i); [lia|]. destruct (Z.eqb_spec k j); [lia|]. auto.
Qed.

(** ** Places of the elements *)

Definition live (t : tetra) : bool := negb (v0 t =? 0).
(** Number of live elements up to [k]. *)
Definition rank (tet : arr tetra) (k : Z) : Z := Z.of_nat (length (filter (fun i => live (aget tet i)) (zrange 1 k))).

Lemma zrange_empty lo hi : hi < lo -> zrange lo hi = [].
Proof. intros. unfold zrange. replace (Z.to_nat (hi - lo + 1)) with 0%nat by lia. reflexivity. Qed.

Lemma rank_step tet k : 1 <= k -> rank tet k = rank tet (k - 1) + (if live (aget tet k) then 1 else 0).
Proof.
  intros Hk. unfold rank. rewrite (zrange_pred k Hk), filter_snoc, app_length.
  destruct (live (aget tet k)); cbn [length]; lia.
Qed.
Lemma rank_mono tet k l : 0 <= k <= l -> rank tet k <= rank tet l.
Proof.
  intros H. replace l with (k + Z.of_nat (Z.to_nat (l - k))) by lia.
  induction (Z.to_nat (l - k)) as [|m IH]; [replace (k + Z.of_nat 0) with k by lia; lia|].
  rewrite (rank_step tet (k + Z.of_nat (S m))) by lia. replace (k + Z.of_nat (S m) - 1) with (k + Z.of_nat m) by lia.
  destruct (live _); lia.
Qed.
Lemma rank_lt tet k l : 1 <= l -> 0 <= k < l -> live (aget tet l) = true -> rank tet k < rank tet l.
Proof. intros H1 H2 E. rewrite (rank_step tet l), E by lia. pose proof (rank_mono tet k (l - 1)). lia. Qed.
Lemma rank0 tet : rank tet 0 = 0.
Proof. reflexivity. Qed.
Lemma rank_pos tet k : 0 <= rank tet k.
Proof. unfold rank. lia. Qed.
Lemma rank_le tet n : 0 <= n -> rank tet n <= n.
Proof.
  intros Hn. unfold rank. generalize (fun i => live (aget tet i)). intros f. pose proof (filter_len _ f (zrange 1 n)) as FL.
  assert (length (zrange 1 n) = Z.to_nat n) by (unfold zrange; rewrite map_length, seq_length; lia). lia.
Qed.
Lemma rank_surj tet n r : 0 <= n -> 1 <= r <= rank tet n -> exists k, 1 <= k <= n /\ live (aget tet k) = true /\ rank tet k = r.
Proof.
  intros Hn. rewrite <- (Z2Nat.id n Hn). induction (Z.to_nat n) as [|m IH]; intros Hr; [cbn in Hr; lia|].
  rewrite (rank_step tet (Z.of_nat (S m))) in Hr by lia. replace (Z.of_nat (S m) - 1) with (Z.of_nat m) in Hr by lia.
  destruct (Z_le_gt_dec r (rank tet (Z.of_nat m))) as [Hle|Hgt].
  - destruct IH as [k [A [B C]]]; [lia|]. exists k. split; [lia|]. auto.
  - exists (Z.of_nat (S m)). split; [lia|]. rewrite (rank_step tet (Z.of_nat (S m))) by lia.
    replace (Z.of_nat (S m) - 1) with (Z.of_nat m) by lia.
    destruct (live (aget tet (Z.of_nat (S m)))); [split; [reflexivity|lia]|lia].
Qed.

Lemma tet_rank_ok ne tet : 0 <= ne < alen tet ->
  exists old, tet_rank ne tet = Ret (old, rank tet ne) /\ alen old = ne + 1 /\
    forall k, 1 <= k <= ne -> aget old k = if live (aget tet k) then rank tet k else 0.
Proof.
  intros Hn. unfold tet_rank.
  destruct (@for_range_inv (arr Z * Z) (fun k st => alen (fst st) = ne + 1 /\ snd st = rank tet (k - 1) /\
     (forall i, aget (fst st) i = if (1 <=? i) && (i <? k) && live (aget tet i) then rank tet i else 0))
     (fun k st => let '(old, n) := st in t <- rd tet k ;;
        if v0 t =? 0 then Ret st else old1 <- wr old k (n + 1) ;; Ret (old1, n + 1)) 1 ne (acalloc (ne + 1) 0, 0))
    as [[old n] [E [L [Hc G]]]].
  - lia.
  - cbn. split; [reflexivity|]. split; [reflexivity|]. intros i. destruct (Z.leb_spec 1 i), (Z.ltb_spec i 1); cbn; try lia; reflexivity.
  - intros k [old n] Hk [L [Hc G]]. cbn [fst snd] in *. rewrite rd_ok by lia. cbn [bind].
    pose proof (rank_step tet k ltac:(lia)) as RS. unfold live in RS at 1.
    destruct (Z.eqb_spec (v0 (aget tet k)) 0) as [E0|N0].
    + exists (old, n). split; [reflexivity|]. cbn [fst snd]. split; [exact L|].
      split; [cbn [negb] in RS; replace (k + 1 - 1) with k by lia; lia|].
      intros i. rewrite G. destruct (Z.eq_dec i k) as [->|Ni].
      * unfold live. rewrite E0. cbn. rewrite !andb_false_r. reflexivity.
      * destruct (Z.ltb_spec i k), (Z.ltb_spec i (k + 1)); try lia; reflexivity.
    + rewrite wr_ok by lia. cbn [bind]. eexists. split; [reflexivity|]. cbn [fst snd alen aget].
      split; [exact L|]. cbn [negb] in RS. split; [replace (k + 1 - 1) with k by lia; lia|].
      intros i. unfold upd. destruct (Z.eqb_spec i k) as [->|Ni].
      * unfold live. destruct (Z.eqb_spec (v0 (aget tet k)) 0); [lia|].
        destruct (Z.leb_spec 1 k), (Z.ltb_spec k (k + 1)); try lia. cbn. lia.
      * rewrite G. destruct (Z.ltb_spec i k), (Z.ltb_spec i (k + 1)); try lia; reflexivity.
  - exists old. cbn [fst snd] in *. rewrite E. replace (ne + 1 - 1) with ne in Hc by lia. subst n.
    split; [reflexivity|]. split; [exact L|]. intros k Hk. rewrite G.
    destruct (Z.leb_spec 1 k), (Z.ltb_spec k (ne + 1)); try lia. reflexivity.
Qed.

Lemma tet_place_ok ne tet ord old :
  0 <= ne < alen tet -> alen old = ne + 1 -> rank tet ne < alen ord ->
  (forall k, 1 <= k <= ne -> aget old k = if live (aget tet k) then rank tet k else 0) ->
  exists pl, tet_place ne tet ord old = Ret pl /\ alen pl = ne + 1 /\
    forall k, 1 <= k <= ne -> aget pl k = if live (aget tet k) then aget ord (rank tet k) else 0.
Proof.
  intros Hn Lo Lord Ho. unfold tet_place.
  destruct (@for_range_inv (arr Z) (fun k a => alen a = ne + 1 /\
     (forall i, 1 <= i <= ne -> aget a i = if i <? k then (if live (aget tet i) then aget ord (rank tet i) else 0) else aget old i))
     (fun k old => t <- rd tet k ;;
        if v0 t =? 0 then Ret old else r <- rd old k ;; q <- rd ord r ;; wr old k q) 1 ne old)
    as [pl [E [L G]]].
  - lia.
  - split; [exact Lo|]. intros i Hi. destruct (Z.ltb_spec i 1); [lia|reflexivity].
  - intros k a Hk [L G]. rewrite rd_ok by lia. cbn [bind]. destruct (Z.eqb_spec (v0 (aget tet k)) 0) as [E0|N0].
    + exists a. split; [reflexivity|]. split; [exact L|]. intros i Hi. rewrite G by exact Hi.
      destruct (Z.eq_dec i k) as [->|Ni].
      * destruct (Z.ltb_spec k k), (Z.ltb_spec k (k + 1)); try lia. rewrite Ho by lia. unfold live. rewrite E0. reflexivity.
      * destruct (Z.ltb_spec i k), (Z.ltb_spec i (k + 1)); try lia; reflexivity.
    + assert (Lk : live (aget tet k) = true) by (unfold live; lia).
      rewrite rd_ok by lia. cbn [bind]. rewrite G by lia. destruct (Z.ltb_spec k k); [lia|]. rewrite Ho, Lk by lia.
      pose proof (rank_mono tet k ne ltac:(lia)). pose proof (rank_pos tet k).
      rewrite rd_ok by lia. cbn [bind]. rewrite wr_ok by lia. eexists. split; [reflexivity|]. cbn [alen aget].
      split; [exact L|]. intros i Hi. unfold upd. destruct (Z.eqb_spec i k) as [->|Ni].
      * destruct (Z.ltb_spec k (k + 1)); [|lia]. rewrite Lk. reflexivity.
      * rewrite G by exact Hi. destruct (Z.ltb_spec i k), (Z.ltb_spec i (k + 1)); try lia; reflexivity.
  - exists pl. split; [exact E|]. split; [exact L|]. intros k Hk. rewrite G by exact Hk.
    destruct (Z.ltb_spec k (ne + 1)); [reflexivity|lia].
Qed.

(** ** Numbers of the vertices *)

Lemma nul_clear t : 0 <= t < MG_NUL -> Z.land t MG_NUL = 0.
Proof.
  intros H. unfold MG_NUL in *. apply Z.bits_inj'. intros b Hb. rewrite Z.land_spec, Z.bits_0.
  change 32768 with (2 ^ 15) in *. rewrite Z.pow2_bits_eqb by lia. destruct (Z.eqb_spec 15 b) as [<-|]; [|apply andb_false_r].
  rewrite andb_true_r. destruct (Z.eq_dec t 0) as [->|]; [apply Z.bits_0|]. apply Z.bits_above_log2; [lia|].
  apply Z.log2_lt_pow2; lia.
Qed.

(** State of the numbering when the vertices of [S] have been met. *)
Record NI (np : Z) (S : Z -> Prop) (st : arr Z * Z) : Prop := {
  ni_len : alen (fst st) = np + 1;
  ni_zero : aget (fst st) 0 = 0;
  ni_pos : 0 <= snd st;
  ni_val : forall k, 1 <= k <= np -> aget (fst st) k = 0 \/ 1 <= aget (fst st) k <= snd st;
  ni_inj : forall k l, 1 <= k <= np -> 1 <= l <= np -> aget (fst st) k = aget (fst st) l -> aget (fst st) k <> 0 -> k = l;
  ni_surj : forall r, 1 <= r <= snd st -> exists k, 1 <= k <= np /\ aget (fst st) k = r;
  ni_set : forall k, 1 <= k <= np -> (aget (fst st) k <> 0 <-> S k)
}.

Lemma NI_ext np S S' st : NI np S st -> (forall k, 1 <= k <= np -> (S k <-> S' k)) -> NI np S' st.
Proof. intros [] H. constructor; auto. intros k Hk. rewrite <- H by exact Hk. auto. Qed.

Lemma NI_new np S perm n v :
  NI np S (perm, n) -> 1 <= v <= np -> aget perm v = 0 ->
  exists perm', wr perm v (n + 1) = Ret perm' /\ NI np (fun k => S k \/ k = v) (perm', n + 1).
Proof.
  intros [H1 H2 H3 H4 H5 H6 H7] Hv E0. cbn [fst snd] in *. rewrite wr_ok by lia. eexists. split; [reflexivity|].
  constructor; cbn [fst snd alen aget]; unfold upd.
  - exact H1.
  - destruct (Z.eqb_spec 0 v); [lia|exact H2].
  - lia.
  - intros k Hk. destruct (Z.eqb_spec k v); [lia|]. destruct (H4 k Hk); [auto|lia].
  - intros k l Hk Hl. destruct (Z.eqb_spec k v), (Z.eqb_spec l v); intros E N.
    + lia.
    + destruct (H4 l Hl); lia.
    + destruct (H4 k Hk); lia.
    + apply H5; assumption.
  - intros r Hr. destruct (Z.eq_dec r (n + 1)) as [->|].
    + exists v. rewrite Z.eqb_refl. auto.
    + destruct (H6 r ltac:(lia)) as [k [A B]]. exists k. split; [exact A|]. destruct (Z.eqb_spec k v) as [->|]; [lia|exact B].
  - intros k Hk. destruct (Z.eqb_spec k v) as [->|N]; [split; [auto|lia]|]. rewrite (H7 k Hk). tauto.
Qed.

Lemma NI_le np S perm n : 0 <= np -> NI np S (perm, n) -> n <= np.
Proof.
  intros Hnp H. assert (Hin : incl (zrange 1 n) (map (aget perm) (zrange 1 np))).
  { intros r Hr. apply in_zrange in Hr. destruct (ni_surj _ _ _ H r Hr) as [k [A B]]. apply in_map_iff.
    exists k. split; [exact B|]. apply in_zrange. exact A. }
  apply NoDup_incl_length in Hin; [|apply NoDup_zrange]. rewrite map_length in Hin. unfold zrange in Hin.
  rewrite !map_length, !seq_length in Hin. lia.
Qed.

Section Number.
Variables (np : Z) (pt : arr point).
Hypothesis Hpt : np < alen pt.
Definition vgood (v : Z) : Prop := 1 <= v <= np /\ 0 <= ptag (aget pt v) < MG_NUL.

Lemma visit_ok S v st : NI np S st -> vgood v ->
  exists st', visit pt v st = Ret st' /\ NI np (fun k => S k \/ k = v) st'.
Proof.
  intros H [Hv Ht]. destruct st as [perm n]. unfold visit.
  pose proof (ni_len _ _ _ H) as HL. cbn [fst] in HL.
  rewrite rd_ok by lia. cbn [bind]. destruct (Z.eqb_spec (aget perm v) 0) as [E0|N0]; cbn [negb].
  - rewrite rd_ok by lia. cbn [bind]. rewrite nul_clear by exact Ht. cbn [Z.eqb negb].
    destruct (NI_new np S perm n v H Hv E0) as [perm' [E H']]. rewrite E. cbn [bind]. eauto.
  - exists (perm, n). split; [reflexivity|]. apply (NI_ext _ S); [exact H|]. intros k Hk. split; [auto|].
    intros [?| ->]; [assumption|]. apply (ni_set _ _ _ H v Hv). exact N0.
Qed.

Lemma visits_ok l : forall S st, NI np S st -> (forall v, In v l -> vgood v) ->
  exists st', visits pt l st = Ret st' /\ NI np (fun k => S k \/ In k l) st'.
Proof.
  induction l as [|v l IH]; intros S st H Hl; cbn [visits].
  - exists st. split; [reflexivity|]. apply (NI_ext _ S); [exact H|]. cbn. tauto.
  - destruct (visit_ok S v st H (Hl v ltac:(left; reflexivity))) as [st1 [E1 H1]]. rewrite E1. cbn [bind].
    destruct (IH _ st1 H1) as [st2 [E2 H2]]; [intros; apply Hl; right; assumption|].
    exists st2. split; [exact E2|]. apply (NI_ext _ _ _ _ H2). intros k Hk. cbn. split; intros; intuition (subst; auto).
Qed.

Variables (ne npr nlive : Z) (tet : arr tetra) (pri : arr (list Z)).
Hypothesis Hne : 0 <= nlive <= ne /\ ne < alen tet.
Hypothesis Hnpr : 0 <= npr < alen pri.
Hypothesis Hnp : 0 <= np.
Hypothesis Htags : forall k, 1 <= k <= np -> 0 <= ptag (aget pt k).
Hypothesis Hlive : forall k, 1 <= k <= ne -> live (aget tet k) = (k <=? nlive).
Hypothesis Htet : forall k v, 1 <= k <= nlive -> In v (tverts (aget tet k)) -> vgood v.
Hypothesis Hpri : forall k v, 1 <= k <= npr -> pok (aget pri k) = true -> In v (aget pri k) -> vgood v.

(** Vertices that get a number. *)
Definition met (v : Z) : Prop :=
  (exists k, 1 <= k <= nlive /\ In v (tverts (aget tet k))) \/
  (exists k, 1 <= k <= npr /\ pok (aget pri k) = true /\ In v (aget pri k)) \/
  (vok (aget pt v) = true /\ Z.land (ptag (aget pt v)) MG_REQ <> 0).

Lemma number_ok : exists perm npreal, number_pts np ne npr pt tet pri = Ret (perm, npreal, nlive) /\ NI np met (perm, npreal).
Proof.
  unfold number_pts.
  destruct (@for_range_inv (arr Z * Z * Z) (fun k x => snd x = Z.min (k - 1) nlive /\
     NI np (fun v => exists i, 1 <= i < k /\ i <= nlive /\ In v (tverts (aget tet i))) (fst x))
     (fun k (x : arr Z * Z * Z) => let '(st, n) := x in
    t <- rd tet k ;;
    if v0 t =? 0 then Ret x else st' <- visits pt (tverts t) st ;; Ret (st', n + 1)) 1 ne ((acalloc (np + 1) 0, 0), 0))
    as [[st1 n1] [E1 [C1 H1]]].
  - lia.
  - cbn [fst snd]. split; [lia|]. constructor; cbn [fst snd acalloc alen aget]; [reflexivity|reflexivity|lia|auto|lia|lia|].
    + intros k Hk. split; [lia|]. intros [i [A _]]. lia.
  - intros k [st n] Hk [C H]. cbn [fst snd] in *. rewrite rd_ok by lia. cbn [bind].
    pose proof (Hlive k Hk) as HL. unfold live in HL. destruct (Z.eqb_spec (v0 (aget tet k)) 0) as [E0|N0].
    + exists (st, n). split; [reflexivity|]. cbn [fst snd]. split; [lia|]. apply (NI_ext _ _ _ _ H).
      intros v Hv. split; intros [i [A [B D]]]; exists i; (split; [|split]); try assumption; lia.
    + destruct (visits_ok (tverts (aget tet k)) _ st H) as [st' [E' H']].
      { intros v Hv. apply (Htet k); [lia|exact Hv]. }
      rewrite E'. cbn [bind]. eexists. split; [reflexivity|]. cbn [fst snd]. split; [lia|].
      apply (NI_ext _ _ _ _ H'). intros v Hv. split.
      * intros [[i [A [B D]]]|D]; [exists i|exists k]; (split; [|split]); try assumption; lia.
      * intros [i [A [B D]]]. destruct (Z.eq_dec i k) as [->|]; [right; exact D|]. left. exists i.
        split; [lia|]. split; [lia|exact D].
  - rewrite E1. cbn [bind]. clear E1. cbn [fst snd] in *.
    destruct (@for_range_inv (arr Z * Z) (fun k st => NI np (fun v => (exists i, 1 <= i <= nlive /\ In v (tverts (aget tet i))) \/
        exists i, 1 <= i < k /\ pok (aget pri i) = true /\ In v (aget pri i)) st)
       (fun k st => l <- rd pri k ;; if pok l then visits pt l st else Ret st) 1 npr st1) as [st2 [E2 H2]].
    + lia.
    + apply (NI_ext _ _ _ _ H1). intros v Hv. split.
      * intros [i [A [B D]]]. left. exists i. split; [lia|exact D].
      * intros [[i [A D]]|[i [A _]]]; [|lia]. exists i. split; [lia|]. split; [lia|exact D].
    + intros k st Hk H. rewrite rd_ok by lia. cbn [bind]. destruct (pok (aget pri k)) eqn:Ep.
      * destruct (visits_ok (aget pri k) _ st H) as [st' [E' H']]; [intros v Hv; apply (Hpri k); auto|].
        exists st'. split; [exact E'|]. apply (NI_ext _ _ _ _ H'). intros v Hv. split.
        -- intros [[D|[i [A D]]]|D]; [auto| |]; right; [exists i|exists k]; (split; [lia|auto]).
        -- intros [D|[i [A [B D]]]]; [auto|]. destruct (Z.eq_dec i k) as [->|]; [auto|]. left. right. exists i. split; [lia|auto].
      * exists st. split; [reflexivity|]. apply (NI_ext _ _ _ _ H). intros v Hv. split.
        -- intros [D|[i [A D]]]; [auto|]. right. exists i. split; [lia|auto].
        -- intros [D|[i [A [B D]]]]; [auto|]. destruct (Z.eq_dec i k) as [->|]; [congruence|]. right. exists i. split; [lia|auto].
    + rewrite E2. cbn [bind]. clear E2.
      set (S2 := fun v => (exists i, 1 <= i <= nlive /\ In v (tverts (aget tet i))) \/
          exists i, 1 <= i < npr + 1 /\ pok (aget pri i) = true /\ In v (aget pri i)) in H2.
      destruct (@for_range_inv (arr Z * Z) (fun k st => NI np (fun v => S2 v \/ (v < k /\ vok (aget pt v) = true /\ Z.land (ptag (aget pt v)) MG_REQ <> 0)) st)
         (fun k st => let '(perm, n) := st in
            p <- rd pt k ;;
            if negb (vok p) then Ret st
            else
              x <- rd perm k ;;
              if negb (x =? 0) then Ret st
              else if Z.land (ptag p) MG_REQ =? 0 then Ret st
              else perm1 <- wr perm k (n + 1) ;; Ret (perm1, n + 1)) 1 np st2) as [[perm npreal] [E3 H3]].
      * lia.
      * apply (NI_ext _ _ _ _ H2). intros v Hv. split; [auto|]. intros [?|[? _]]; [assumption|lia].
      * intros k [perm n] Hk H. pose proof (ni_len _ _ _ H) as HL. cbn [fst] in HL.
        rewrite rd_ok by lia. cbn [bind].
        destruct (vok (aget pt k)) eqn:Ev; cbn [negb].
        -- rewrite rd_ok by lia. cbn [bind]. destruct (Z.eqb_spec (aget perm k) 0) as [E0|N0]; cbn [negb].
           ++ destruct (Z.eqb_spec (Z.land (ptag (aget pt k)) MG_REQ) 0) as [R0|R1].
              ** eexists. split; [reflexivity|]. apply (NI_ext _ _ _ _ H). intros v Hv. split.
                 --- intros [?|[A B]]; [auto|right; split; [lia|exact B]].
                 --- intros [?|[A B]]; [auto|]. destruct (Z.eq_dec v k) as [->|]; [tauto|]. right. split; [lia|exact B].
              ** destruct (NI_new np _ perm n k H Hk E0) as [perm' [E' H']]. rewrite E'. cbn [bind]. eexists. split; [reflexivity|].
                 apply (NI_ext _ _ _ _ H'). intros v Hv. split.
                 --- intros [[?|[A B]]| ->]; [auto|right; split; [lia|exact B]|right; split; [lia|auto]].
                 --- intros [?|[A B]]; [auto|]. destruct (Z.eq_dec v k) as [->|]; [auto|]. left. right. split; [lia|exact B].
           ++ eexists. split; [reflexivity|]. apply (NI_ext _ _ _ _ H). intros v Hv. split.
              ** intros [?|[A B]]; [auto|right; split; [lia|exact B]].
              ** intros [?|[A B]]; [auto|]. destruct (Z.eq_dec v k) as [->|]; [|right; split; [lia|exact B]].
                 apply (ni_set _ _ _ H k Hk). exact N0.
        -- eexists. split; [reflexivity|]. apply (NI_ext _ _ _ _ H). intros v Hv. split.
           ++ intros [?|[A B]]; [auto|right; split; [lia|exact B]].
           ++ intros [?|[A B]]; [auto|]. destruct (Z.eq_dec v k) as [->|]; [destruct B; congruence|]. right. split; [lia|exact B].
      * rewrite E3. cbn [bind]. exists perm, npreal. split; [f_equal; f_equal; lia|].
        apply (NI_ext _ _ _ _ H3). intros v Hv. unfold met, S2. split.
        -- intros [[A|[i [A B]]]|[A B]]; [auto| |auto]. right. left. exists i. split; [lia|exact B].
        -- intros [A|[[i [A B]]|B]]; [auto| |].
           ++ left. right. exists i. split; [lia|exact B].
           ++ right. split; [lia|exact B].
Qed.

End Number.

(** ** New vertices *)

Lemma map_loop A (f : A -> outcome A) (g : Z -> A) n (a : arr A) :
  0 <= n < alen a -> (forall k, 1 <= k <= n -> f (aget a k) = Ret (g k)) ->
  exists a', for_range 1 n (fun k a => x <- rd a k ;; y <- f x ;; wr a k y) a = Ret a' /\ alen a' = alen a /\
    forall k, aget a' k = if (1 <=? k) && (k <=? n) then g k else aget a k.
Proof.
  intros Hn Hf.
  destruct (@for_range_inv (arr A) (fun i b => alen b = alen a /\ forall k, aget b k = if (1 <=? k) && (k <? i) then g k else aget a k)
    (fun k a => x <- rd a k ;; y <- f x ;; wr a k y) 1 n a) as [a' [E [L G]]].
  - lia.
  - split; [reflexivity|]. intros k. destruct (Z.leb_spec 1 k), (Z.ltb_spec k 1); try lia; reflexivity.
  - intros i b Hi [L G]. rewrite rd_ok by lia. cbn [bind]. rewrite G.
    destruct (Z.ltb_spec i i); [lia|]. rewrite andb_false_r, Hf by exact Hi. cbn [bind]. rewrite wr_ok by lia.
    eexists. split; [reflexivity|]. cbn [alen aget]. split; [exact L|]. intros k. unfold upd.
    destruct (Z.eqb_spec k i) as [->|N].
    + destruct (Z.leb_spec 1 i), (Z.ltb_spec i (i + 1)); try lia. reflexivity.
    + rewrite G. destruct (Z.ltb_spec k i), (Z.ltb_spec k (i + 1)); try lia; reflexivity.
  - exists a'. split; [exact E|]. split; [exact L|]. intros k. rewrite G.
    destruct (Z.ltb_spec k (n + 1)), (Z.leb_spec k n); try lia; reflexivity.
Qed.

Definition retet (s : Z -> Z) (t : tetra) : tetra :=
  mkT (s (v0 t)) (s (v1 t)) (s (v2 t)) (s (v3 t)) (tref t) (txt t) (tmark t) (tq t).

Lemma ren_tet_ok perm t : (forall v, In v (tverts t) -> 0 <= v < alen perm) ->
  ren_tet perm t = Ret (retet (aget perm) t).
Proof.
  intros H. unfold ren_tet. unfold tverts in H. rewrite !rd_ok by (apply H; cbn; auto). reflexivity.
Qed.
Lemma ren_list_ok perm l : (forall v, In v l -> 0 <= v < alen perm) -> ren_list perm l = Ret (map (aget perm) l).
Proof.
  induction l as [|v l IH]; intros H; [reflexivity|]. cbn [ren_list map].
  rewrite rd_ok by (apply H; left; reflexivity). cbn [bind]. rewrite IH by (intros; apply H; right; assumption). reflexivity.
Qed.

(** ** Free lists *)

Lemma relink_pts_ok np npmax a : 0 <= np -> npmax < alen a ->
  exists nil a', relink_pts np npmax a = Ret (nil, a') /\ alen a' = alen a /\
    (forall k, 1 <= k <= np -> aget a' k = aget a k) /\
    chain (fun k => ptmp (aget a' k)) nil (zrange (np + 1) (npmax - 1)).
Proof.
  intros Hn Hl. unfold relink_pts. destruct (Z.leb_spec (npmax - 1) np) as [Hle|Hlt].
  - exists 0, a. split; [reflexivity|]. split; [reflexivity|]. split; [reflexivity|].
    rewrite zrange_empty by lia. reflexivity.
  - destruct (link_pts_ok (np + 1) (npmax - 1) a) as [a1 [E1 [L1 G1]]]; [lia|lia|]. rewrite E1. cbn [bind].
    rewrite rd_ok by lia. cbn [bind]. rewrite wr_ok by lia. cbn [bind]. rewrite rd_ok by (cbn [alen]; lia). cbn [bind].
    rewrite wr_ok by (cbn [alen]; lia). cbn [bind aget alen]. eexists _, _. split; [reflexivity|]. cbn [alen aget].
    split; [exact L1|]. split.
    + intros k Hk. rewrite !upd_other by lia. rewrite G1. destruct (Z.leb_spec (np + 1) k); [lia|reflexivity].
    + apply chain_zrange; [lia| |].
      * intros k Hk. rewrite !upd_other by lia. rewrite G1.
        destruct (Z.leb_spec (np + 1) k), (Z.ltb_spec k (npmax - 1)); try lia. reflexivity.
      * rewrite upd_other by lia. rewrite upd_same. reflexivity.
Qed.

Lemma link_tets_ok lo hi a :
  0 <= lo -> hi <= alen a ->
  exists a', link_tets lo hi a = Ret a' /\ alen a' = alen a /\
    forall k, aget a' k = if (lo <=? k) && (k <? hi) then set_v3 (aget a k) (k + 1) else aget a k.
Proof.
  intros Hlo Hhi. unfold link_tets.
  destruct (Z_le_gt_dec lo (hi - 1 + 1)) as [Hle|Hgt].
  - destruct (@for_range_inv (arr tetra) (fun i b => alen b = alen a /\
       forall k, aget b k = if (lo <=? k) && (k <? i) then set_v3 (aget a k) (k + 1) else aget a k)
       (fun k a => p <- rd a k ;; wr a k (set_v3 p (k + 1))) lo (hi - 1) a) as [a' [E [L H]]].
    + exact Hle.
    + split; [reflexivity|]. intros k. destruct (Z.leb_spec lo k), (Z.ltb_spec k lo); reflexivity || lia.
    + intros i b Hi [L H]. rewrite rd_ok by lia. cbn [bind]. rewrite wr_ok by lia. eexists. split; [reflexivity|].
      cbn [alen aget]. split; [exact L|]. intros k. unfold upd. rewrite !H.
      destruct (Z.eqb_spec k i) as [->|N].
      * destruct (Z.leb_spec lo i), (Z.ltb_spec i (i + 1)), (Z.ltb_spec i i); try lia. reflexivity.
      * destruct (Z.leb_spec lo k), (Z.ltb_spec k (i + 1)), (Z.ltb_spec k i); try lia; reflexivity.
    + exists a'. split; [exact E|]. split; [exact L|]. intros k. rewrite H.
      replace (hi - 1 + 1) with hi by lia. reflexivity.
  - exists a. unfold for_range. replace (Z.to_nat (hi - 1 - lo + 1)) with 0%nat by lia.
    split; [reflexivity|]. split; [reflexivity|]. intros k.
    destruct (Z.leb_spec lo k), (Z.ltb_spec k hi); reflexivity || lia.
Qed.

Lemma relink_tets_ok ne nemax a : 0 <= ne -> nemax < alen a ->
  exists nil a', relink_tets ne nemax a = Ret (nil, a') /\ alen a' = alen a /\
    (forall k, 1 <= k <= ne -> aget a' k = aget a k) /\
    (forall k, v0 (aget a' k) = v0 (aget a k)) /\
    chain (fun k => v3 (aget a' k)) nil (zrange (ne + 1) (nemax - 1)).
Proof.
  intros Hn Hl. unfold relink_tets. destruct (Z.leb_spec (nemax - 1) ne) as [Hle|Hlt].
  - exists 0, a. split; [reflexivity|]. split; [reflexivity|]. split; [reflexivity|]. split; [reflexivity|].
    rewrite zrange_empty by lia. reflexivity.
  - destruct (link_tets_ok (ne + 1) (nemax - 1) a) as [a1 [E1 [L1 G1]]]; [lia|lia|]. rewrite E1. cbn [bind].
    rewrite rd_ok by lia. cbn [bind]. rewrite wr_ok by lia. cbn [bind]. rewrite rd_ok by (cbn [alen]; lia). cbn [bind].
    rewrite wr_ok by (cbn [alen]; lia). cbn [bind aget alen]. eexists _, _. split; [reflexivity|]. cbn [alen aget].
    split; [exact L1|]. split; [|split].
    + intros k Hk. rewrite !upd_other by lia. rewrite G1. destruct (Z.leb_spec (ne + 1) k); [lia|reflexivity].
    + assert (V : forall k, v0 (aget a1 k) = v0 (aget a k)) by (intros k; rewrite G1; destruct (_ && _); reflexivity).
      intros k. unfold upd.
      repeat match goal with |- context [if ?x =? ?y then _ else _] => destruct (Z.eqb_spec x y) end; subst; cbn [v0 set_v3]; apply V || lia.
    + apply chain_zrange; [lia| |].
      * intros k Hk. rewrite !upd_other by lia. rewrite G1.
        destruct (Z.leb_spec (ne + 1) k), (Z.ltb_spec k (nemax - 1)); try lia. reflexivity.
      * rewrite upd_other by lia. rewrite upd_same. reflexivity.
Qed.
