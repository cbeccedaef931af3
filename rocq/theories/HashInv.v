(** Representation invariant of the chained hash tables and the lemmas used to
    prove that they behave as finite maps. *)
From Coq Require Import ZArith List Lia Bool.
From Coq Require Import ZifyBool ZifyNat.
From Verif Require Import CBase HashModel.
Import ListNotations.
Open Scope Z_scope.

(** ** Linked paths *)

(** [path it p l e]: following [nxt] from [p] visits exactly [l] then reaches [e]. *)
Fixpoint path (it : Z -> node) (p : Z) (l : list Z) (e : Z) : Prop :=
  match l with
  | [] => p = e
  | x :: l' => p = x /\ p <> e /\ path it (nnxt (it x)) l' e
  end.

Lemma path_ext it it' l : forall p e,
  (forall s, In s l -> nnxt (it' s) = nnxt (it s)) -> path it p l e -> path it' p l e.
Proof.
  induction l as [|x l IH]; simpl; intros p e H Hp; [exact Hp|].
  destruct Hp as [E [N Hp]]. split; [exact E|]. split; [exact N|].
  rewrite H by (left; reflexivity). apply IH; [|exact Hp].
  intros s Hs. apply H. right. exact Hs.
Qed.

Lemma path_det it l1 : forall l2 p e, path it p l1 e -> path it p l2 e -> l1 = l2.
Proof.
  induction l1 as [|x l1 IH]; destruct l2 as [|y l2]; simpl; intros p e H1 H2.
  - reflexivity.
  - destruct H2 as [? [? ?]]. congruence.
  - destruct H1 as [? [? ?]]. congruence.
  - destruct H1 as [E1 [N1 H1]], H2 as [E2 [N2 H2]]. subst x. subst y.
    f_equal. eapply IH; eassumption.
Qed.

Lemma path_suffix it l1 : forall l2 x p e,
  path it p (l1 ++ x :: l2) e -> path it x (x :: l2) e.
Proof.
  induction l1 as [|y l1 IH]; simpl; intros l2 x p e H.
  - destruct H as [E [N H]]. subst p. auto.
  - destruct H as [E [N H]]. apply IH in H. exact H.
Qed.

Lemma path_nodup it l : forall p e, path it p l e -> NoDup l.
Proof.
  induction l as [|x l IH]; intros p e H; [constructor|].
  pose proof H as H0. simpl in H. destruct H as [E [N H]]. subst p.
  constructor; [|eapply IH; exact H].
  intros Hin. apply in_split in Hin. destruct Hin as [l1 [l2 El]]. subst l.
  pose proof (path_suffix it l1 l2 x (nnxt (it x)) e H) as Hs.
  pose proof (path_det it _ _ _ _ H0 Hs) as Eq.
  apply (f_equal (@length Z)) in Eq. simpl in Eq. rewrite app_length in Eq. simpl in Eq. lia.
Qed.

Lemma path_app it l1 : forall l2 p m e,
  path it p l1 m -> path it m l2 e -> ~ In e l1 ->
  path it p (l1 ++ l2) e.
Proof.
  induction l1 as [|x l1 IH]; simpl; intros l2 p m e H1 H2 Hn.
  - subst. exact H2.
  - destruct H1 as [E [N H1]]. split; [exact E|]. split.
    + intros Ee. apply Hn. left. congruence.
    + eapply IH; [exact H1 | exact H2 |]. intros Hi. apply Hn. right. exact Hi.
Qed.

(** Replacing the link of the last visited slot extends the path. *)
Lemma path_snoc it it' l : forall p x e,
  path it p (l ++ [x]) e ->
  (forall s, In s l -> nnxt (it' s) = nnxt (it s)) ->
  forall f, nnxt (it' x) = f -> f <> e -> nnxt (it' f) = e ->
  path it' p (l ++ [x; f]) e.
Proof.
  induction l as [|y l IH]; simpl; intros p x e H Hs f Hx Hfe Hf.
  - destruct H as [E [N H]]. repeat split; try assumption. congruence.
  - destruct H as [E [N H]]. split; [exact E|]. split; [exact N|].
    rewrite Hs by (left; reflexivity). eapply IH; try eassumption.
    intros s Hin. apply Hs. right. exact Hin.
Qed.

(** Unlinking a middle slot. *)
Lemma path_unlink it it' l1 : forall p x y l2 e,
  path it p (l1 ++ x :: y :: l2) e ->
  (forall s, In s l1 -> nnxt (it' s) = nnxt (it s)) ->
  nnxt (it' x) = nnxt (it y) ->
  (forall s, In s l2 -> nnxt (it' s) = nnxt (it s)) ->
  path it' p (l1 ++ x :: l2) e.
Proof.
  induction l1 as [|z l1 IH]; simpl; intros p x y l2 e H H1 Hx H2.
  - destruct H as [E [N [E2 [N2 H]]]]. split; [exact E|]. split; [exact N|].
    rewrite Hx. eapply path_ext; [exact H2 | exact H].
  - destruct H as [E [N H]]. split; [exact E|]. split; [exact N|].
    rewrite H1 by (left; reflexivity). eapply IH; eauto.
Qed.

Lemma path_contiguous it lo hi :
  lo <= hi -> (forall s, lo <= s < hi -> nnxt (it s) = s + 1) ->
  path it lo (map (fun i => lo + Z.of_nat i) (seq 0 (Z.to_nat (hi - lo)))) hi.
Proof.
  intros Hle H.
  remember (Z.to_nat (hi - lo)) as n eqn:En.
  revert lo Hle H En. induction n as [|n IH]; intros lo Hle H En; simpl.
  - lia.
  - rewrite Z.add_0_r.
    split; [reflexivity|]. split; [lia|].
    rewrite H by lia.
    rewrite <- seq_shift, map_map.
    erewrite map_ext; [apply (IH (lo + 1)); [lia | intros s Hs; apply H; lia | lia]|].
    intros i. simpl. lia.
Qed.

(** ** Invariant *)

Section Inv.

(** Identity of an entry: [(a,b,0)] for edge tables, [(a,b,s)] for face tables. *)
Variable kd : node -> Z * Z * Z.

Definition live (h : htab) (s : Z) : Prop :=
  0 <= s < hmax h /\ na (aget (hitem h) s) <> 0.

(** [B key] lists the overflow slots of bucket [key], [F] the free slots. *)
Record InvBF (h : htab) (B : Z -> list Z) (F : list Z) : Prop := {
  i_siz : 0 < hsiz h < hmax h;
  i_len : alen (hitem h) = hmax h + 1;
  i_pos : forall s, 0 <= s <= hmax h -> 0 <= na (aget (hitem h) s);
  i_end : na (aget (hitem h) (hmax h)) = 0;
  i_chain : forall key, 0 <= key < hsiz h ->
            path (aget (hitem h)) (nnxt (aget (hitem h) key)) (B key) 0;
  i_empty : forall key, 0 <= key < hsiz h -> na (aget (hitem h) key) = 0 -> B key = [];
  i_over : forall key s, 0 <= key < hsiz h -> In s (B key) ->
           hsiz h <= s < hmax h /\ na (aget (hitem h) s) <> 0
           /\ hkey (hsiz h) (na (aget (hitem h) s)) (nb (aget (hitem h) s)) = key;
  i_head : forall key, 0 <= key < hsiz h -> na (aget (hitem h) key) <> 0 ->
           hkey (hsiz h) (na (aget (hitem h) key)) (nb (aget (hitem h) key)) = key;
  i_reach : forall s, hsiz h <= s < hmax h -> na (aget (hitem h) s) <> 0 ->
            0 <= hkey (hsiz h) (na (aget (hitem h) s)) (nb (aget (hitem h) s)) < hsiz h
            /\ In s (B (hkey (hsiz h) (na (aget (hitem h) s)) (nb (aget (hitem h) s))));
  i_uniq : forall s1 s2, live h s1 -> live h s2 ->
           kd (aget (hitem h) s1) = kd (aget (hitem h) s2) -> s1 = s2;
  i_free : path (aget (hitem h)) (hnxt h) F (hmax h);
  i_freein : forall s, In s F -> hsiz h <= s < hmax h /\ na (aget (hitem h) s) = 0;
  i_freeall : forall s, hsiz h <= s < hmax h -> na (aget (hitem h) s) = 0 -> In s F;
  i_last : F = [] \/ exists F0, F = F0 ++ [hmax h - 1]
}.

(** The table is ready for use: the free list is not exhausted. *)
Definition Inv (h : htab) : Prop := exists B F, InvBF h B F /\ F <> [].

(** Contents of the table: an entry of identity [key] with payload [(k,t)]. *)
Definition holds (h : htab) (key : Z * Z * Z) (k t : Z) : Prop :=
  exists s, live h s /\ kd (aget (hitem h) s) = key
            /\ nk (aget (hitem h) s) = k /\ ntag (aget (hitem h) s) = t.

Definition absent (h : htab) (key : Z * Z * Z) : Prop :=
  forall s, live h s -> kd (aget (hitem h) s) <> key.

Lemma hkey_range siz a b : 0 < siz -> 0 <= a -> 0 <= b -> 0 <= hkey siz a b < siz.
Proof. intros Hs Ha Hb. unfold hkey. apply Z.rem_bound_pos; lia. Qed.

Lemma holds_fun h B F key k t k' t' :
  InvBF h B F -> holds h key k t -> holds h key k' t' -> k = k' /\ t = t'.
Proof.
  intros I [s [L [K [E1 E2]]]] [s' [L' [K' [E1' E2']]]].
  assert (s = s') by (eapply i_uniq; eauto; congruence). subst s'. split; congruence.
Qed.

Lemma absent_holds h key k t : absent h key -> ~ holds h key k t.
Proof. intros A [s [L [K _]]]. exact (A s L K). Qed.

End Inv.

(** ** Creation *)

Lemma init_links_spec lo hi it :
  0 <= lo -> hi <= alen it ->
  exists it', init_links lo hi it = Ret it' /\ alen it' = alen it /\
    (forall s, aget it' s =
       if (lo <=? s) && (s <? hi) then set_nxt (aget it s) (s + 1) else aget it s).
Proof.
  intros Hlo Hhi. unfold init_links.
  destruct (Z_le_gt_dec lo hi) as [Hle|Hgt].
  - destruct (@for_range_inv (arr node)
      (fun j a => alen a = alen it /\
         forall s, aget a s = if (lo <=? s) && (s <? j) then set_nxt (aget it s) (s + 1) else aget it s)
      (fun j a => n <- rd a j ;; wr a j (set_nxt n (j + 1))) lo (hi - 1) it) as [it' [E [Hl Hs]]].
    + lia.
    + split; [reflexivity|]. intros s.
      destruct (Z.leb_spec lo s), (Z.ltb_spec s lo); simpl; reflexivity || lia.
    + intros j a Hj [Hl Hs].
      rewrite rd_ok by lia. cbn [bind]. rewrite wr_ok by lia.
      eexists. split; [reflexivity|]. split; [exact Hl|].
      intros s. cbn [aget]. unfold upd.
      destruct (Z.eqb_spec s j) as [->|Hne].
      * rewrite Hs.
        destruct (Z.leb_spec lo j), (Z.ltb_spec j j), (Z.ltb_spec j (j + 1)); simpl; reflexivity || lia.
      * rewrite Hs.
        destruct (Z.leb_spec lo s), (Z.ltb_spec s j), (Z.ltb_spec s (j + 1)); simpl; reflexivity || lia.
    + exists it'. split; [exact E|]. split; [exact Hl|].
      intros s. rewrite Hs. replace (hi - 1 + 1) with hi by lia. reflexivity.
  - unfold for_range. replace (Z.to_nat (hi - 1 - lo + 1)) with 0%nat by lia.
    exists it. split; [reflexivity|]. split; [reflexivity|].
    intros s. destruct (Z.leb_spec lo s), (Z.ltb_spec s hi); simpl; reflexivity || lia.
Qed.

Definition seqZ (lo hi : Z) : list Z := map (fun i => lo + Z.of_nat i) (seq 0 (Z.to_nat (hi - lo))).

Lemma seqZ_in lo hi s : In s (seqZ lo hi) <-> lo <= s < hi.
Proof.
  unfold seqZ. rewrite in_map_iff. split.
  - intros [i [E H]]. apply in_seq in H. lia.
  - intros H. exists (Z.to_nat (s - lo)). split; [lia|]. apply in_seq. lia.
Qed.

Lemma seqZ_last lo hi : lo < hi -> exists l, seqZ lo hi = l ++ [hi - 1].
Proof.
  intros H. unfold seqZ. replace (Z.to_nat (hi - lo)) with (S (Z.to_nat (hi - lo - 1))) by lia.
  rewrite seq_S, map_app. simpl. eexists. f_equal. f_equal. lia.
Qed.

Lemma hashNew_inv kd siz0 max0 :
  0 <= siz0 <= max0 ->
  exists h, hashNew siz0 max0 = Ret h /\ Inv kd h /\ (forall s, na (aget (hitem h) s) = 0)
            /\ hsiz h = siz0 + 1.
Proof.
  intros H. unfold hashNew.
  destruct (init_links_spec (siz0 + 1) (max0 + 2) (acalloc (max0 + 2 + 1) node0))
    as [it [E [Hl Hs]]]; [lia | simpl; lia |].
  rewrite E. cbn [bind].
  eexists. split; [reflexivity|].
  assert (Ha : forall s, na (aget it s) = 0).
  { intros s. rewrite Hs. simpl. destruct (_ && _); reflexivity. }
  split; [|split; [exact Ha | reflexivity]].
  exists (fun _ => []), (seqZ (siz0 + 1) (max0 + 2)). split.
  - constructor; cbn [hsiz hmax hnxt hitem].
    + lia.
    + simpl in Hl. lia.
    + intros s _. rewrite Ha. lia.
    + apply Ha.
    + intros key Hk. simpl. rewrite Hs.
      destruct (Z.leb_spec (siz0 + 1) key), (Z.ltb_spec key (max0 + 2)); simpl; reflexivity || lia.
    + reflexivity.
    + intros key s _ [].
    + intros key _ Hk. rewrite Ha in Hk. congruence.
    + intros s _ Hk. rewrite Ha in Hk. congruence.
    + intros s1 s2 [_ Hk]. cbn [hitem] in Hk. rewrite Ha in Hk. congruence.
    + apply path_contiguous; [lia|]. intros s Hs'. rewrite Hs.
      destruct (Z.leb_spec (siz0 + 1) s), (Z.ltb_spec s (max0 + 2)); simpl; reflexivity || lia.
    + intros s Hin. apply seqZ_in in Hin. split; [lia | apply Ha].
    + intros s Hs' _. apply seqZ_in. lia.
    + right. apply seqZ_last. lia.
  - destruct (seqZ_last (siz0 + 1) (max0 + 2)) as [l El]; [lia|]. rewrite El.
    destruct l; discriminate.
Qed.

(** ** Walking a chain *)

Section Walk.
Variable kd : node -> Z * Z * Z.

Lemma walk_u_spec mt (it : arr node) : forall l p fuel,
  path (aget it) (nnxt (aget it p)) l 0 ->
  0 <= p < alen it -> (forall s, In s l -> 0 < s < alen it) ->
  (length l < fuel)%nat ->
  (exists l1 x l2, l = l1 ++ x :: l2 /\ mt (aget it x) = true
     /\ (forall s, In s l1 -> mt (aget it s) = false)
     /\ walk_u fuel it mt p = Ret (true, x)
     /\ walk_p fuel it mt p = Ret (Some (last (p :: l1) p, x))) \/
  ((forall s, In s l -> mt (aget it s) = false)
     /\ walk_u fuel it mt p = Ret (false, last (p :: l) p)
     /\ walk_p fuel it mt p = Ret None).
Proof.
  induction l as [|x l IH]; intros p fuel Hp Hb Hin Hf; (destruct fuel as [|fuel]; [simpl in Hf; lia|]);
    cbn [walk_u walk_p]; rewrite rd_ok by lia; cbn [bind].
  - right. simpl in Hp. rewrite Hp. simpl. repeat split; auto; try (intros s []).
  - simpl in Hp. destruct Hp as [E [N Hp]].
    destruct (Z.eqb_spec (nnxt (aget it p)) 0); [congruence|].
    pose proof (Hin x (or_introl eq_refl)) as Hx.
    rewrite rd_ok by lia. cbn [bind]. rewrite E.
    destruct (mt (aget it x)) eqn:Em.
    + left. exists [], x, l. simpl. repeat split; auto. intros s [].
    + destruct (IH x fuel) as [[l1 [y [l2 [El [Hm [Hn [W1 W2]]]]]]]|[Hn [W1 W2]]].
      * exact Hp.
      * lia.
      * intros s Hs. apply Hin. right. exact Hs.
      * simpl in Hf. lia.
      * left. exists (x :: l1), y, l2. subst l. repeat split; auto.
        -- intros s [<-|Hs]; auto.
        -- rewrite W2. f_equal. f_equal. f_equal. simpl. destruct l1; [reflexivity|].
           clear. generalize z. induction l1; intros; simpl; [reflexivity|apply IHl1].
      * right. repeat split.
        -- intros s [<-|Hs]; auto.
        -- rewrite W1. f_equal. f_equal. simpl. destruct l; [reflexivity|].
           clear. generalize z. induction l; intros; simpl; [reflexivity|apply IHl].
        -- exact W2.
Qed.

Lemma walk_b_eq mt (it : arr node) max : forall l p fuel,
  path (aget it) (nnxt (aget it p)) l 0 -> (forall s, In s l -> 0 < s < max) -> 0 < max ->
  walk_b fuel it max mt p = walk_u fuel it mt p.
Proof.
  induction l as [|x l IH]; intros p fuel Hp Hin Hmax; destruct fuel as [|fuel]; try reflexivity;
    cbn [walk_u walk_b]; (destruct (rd it p) as [n|] eqn:Er; [|reflexivity]); cbn [bind];
    apply rd_inv in Er; destruct Er as [_ ->].
  - simpl in Hp. rewrite Hp. reflexivity.
  - simpl in Hp. destruct Hp as [E [_ Hp]]. rewrite E.
    pose proof (Hin x (or_introl eq_refl)) as Hx.
    destruct (Z.eqb_spec x 0); [lia|]. destruct (Z.ltb_spec x max); [|lia]. simpl.
    destruct (rd it x) as [m|]; cbn [bind]; [|reflexivity]. destruct (mt m); [reflexivity|].
    apply IH; auto. intros s Hs. apply Hin. right. exact Hs.
Qed.

Lemma chain_len h B F key :
  InvBF kd h B F -> 0 <= key < hsiz h -> (length (B key) < fuel_of h)%nat.
Proof.
  intros I Hk. unfold fuel_of.
  pose proof (path_nodup _ _ _ _ (i_chain _ _ _ _ I key Hk)) as Hnd.
  pose proof (i_siz _ _ _ _ I). pose proof (i_len _ _ _ _ I).
  assert (Z.of_nat (length (B key)) <= Z.max 0 (hmax h)).
  { apply NoDup_Z_bound; [exact Hnd|]. intros x Hx.
    destruct (i_over _ _ _ _ I key x Hk Hx). lia. }
  lia.
Qed.

End Walk.
