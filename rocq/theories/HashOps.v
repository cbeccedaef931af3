(** Each table operation preserves the invariant and has the effect of the
    corresponding map operation. *)
From Coq Require Import ZArith List Lia Bool.
From Coq Require Import ZifyBool ZifyNat.
From Verif Require Import CBase HashModel HashInv.
Import ListNotations.
Open Scope Z_scope.

Lemma last_in (A : Type) (l : list A) x d : In (last (x :: l) d) (x :: l).
Proof.
  revert x. induction l as [|y l IH]; intros x; [left; reflexivity|].
  right. change (last (x :: y :: l) d) with (last (y :: l) d). apply IH.
Qed.

Lemma last_cons_irrel (A : Type) (l : list A) x d d' : last (x :: l) d = last (x :: l) d'.
Proof.
  revert x. induction l as [|y l IH]; intros x; [reflexivity|].
  change (last (y :: l) d = last (y :: l) d'). apply IH.
Qed.

(** Identity functions used by the two kinds of table. *)
Definition kd_edge (n : node) : Z * Z * Z := (na n, nb n, 0).
Definition kd_face (n : node) : Z * Z * Z := (na n, nb n, ns n).

Record kd_ok (kd : node -> Z * Z * Z) : Prop := {
  kd_nxt : forall n x, kd (set_nxt n x) = kd n;
  kd_ab : forall n m, kd n = kd m -> na n = na m /\ nb n = nb m
}.

Lemma kd_edge_ok : kd_ok kd_edge.
Proof. split; [reflexivity|]. unfold kd_edge. intros n m E. inversion E. auto. Qed.
Lemma kd_face_ok : kd_ok kd_face.
Proof. split; [reflexivity|]. unfold kd_face. intros n m E. inversion E. auto. Qed.

Section Ops.
Variable kd : node -> Z * Z * Z.
Hypothesis KD : kd_ok kd.

Notation it h := (aget (hitem h)).

(** ** Searching *)

Section Find.
Variables (h : htab) (B : Z -> list Z) (F : list Z).
Hypothesis I : InvBF kd h B F.
Variables (mt : node -> bool) (q : Z * Z * Z) (a b : Z).
Hypothesis Hmt : forall n, mt n = true <-> kd n = q.
Hypothesis Hq : forall n, kd n = q -> na n = a /\ nb n = b.
Hypothesis Ha : 0 < a.
Hypothesis Hb : 0 < b.

Let key := hkey (hsiz h) a b.

Lemma key_range : 0 <= key < hsiz h.
Proof. pose proof (i_siz _ _ _ _ I). apply hkey_range; lia. Qed.

Lemma match_place s : live h s -> kd (it h s) = q -> s = key \/ In s (B key).
Proof.
  intros [Hs Hl] Hk. destruct (Hq _ Hk) as [E1 E2].
  destruct (Z_lt_le_dec s (hsiz h)) as [Hlt|Hge].
  - left. pose proof (i_head _ _ _ _ I s ltac:(lia) Hl) as Hh. rewrite E1, E2 in Hh. symmetry. exact Hh.
  - right. destruct (i_reach _ _ _ _ I s ltac:(lia) Hl) as [_ Hin].
    rewrite E1, E2 in Hin. exact Hin.
Qed.

Lemma ckey_ok : ckey (hsiz h) a b = Ret key.
Proof. pose proof (i_siz _ _ _ _ I). unfold ckey. destruct (Z.eqb_spec (hsiz h) 0); [lia|reflexivity]. Qed.

Lemma find_cases :
  rd (hitem h) key = Ret (it h key) /\
  ( (na (it h key) = 0 /\ mt (it h key) = false /\ absent kd h q /\ B key = []) \/
    (na (it h key) <> 0 /\ mt (it h key) = true /\ live h key) \/
    (na (it h key) <> 0 /\ mt (it h key) = false /\ exists l1 x l2,
        B key = l1 ++ x :: l2 /\ mt (it h x) = true /\ live h x
        /\ walk_b (fuel_of h) (hitem h) (hmax h) mt key = Ret (true, x)
        /\ walk_u (fuel_of h) (hitem h) mt key = Ret (true, x)
        /\ walk_p (fuel_of h) (hitem h) mt key = Ret (Some (last (key :: l1) key, x))) \/
    (na (it h key) <> 0 /\ mt (it h key) = false /\ absent kd h q
        /\ walk_b (fuel_of h) (hitem h) (hmax h) mt key = Ret (false, last (key :: B key) key)
        /\ walk_u (fuel_of h) (hitem h) mt key = Ret (false, last (key :: B key) key)
        /\ walk_p (fuel_of h) (hitem h) mt key = Ret None) ).
Proof.
  pose proof key_range as Hk. pose proof (i_siz _ _ _ _ I) as Hsiz.
  pose proof (i_len _ _ _ _ I) as Hlen.
  split; [apply rd_ok; lia|].
  assert (Hpos : mt (it h key) = true -> na (it h key) <> 0).
  { intros E. apply Hmt in E. apply Hq in E. lia. }
  destruct (Z.eq_dec (na (it h key)) 0) as [E0|N0].
  - left. assert (EB : B key = []) by (eapply i_empty; eauto).
    repeat split; try assumption.
    + destruct (mt (it h key)); [exfalso; apply Hpos; auto | reflexivity].
    + intros s L K. destruct (match_place s L K) as [->|Hin].
      * destruct L. congruence.
      * rewrite EB in Hin. destruct Hin.
  - right. destruct (mt (it h key)) eqn:Em.
    + left. repeat split; auto; try lia.
    + right.
      assert (Hw : forall fuel, walk_b fuel (hitem h) (hmax h) mt key = walk_u fuel (hitem h) mt key).
      { intros fuel. eapply walk_b_eq; [eapply i_chain; eauto| |lia].
        intros s Hs. destruct (i_over _ _ _ _ I key s Hk Hs). lia. }
      destruct (walk_u_spec mt (hitem h) (B key) key (fuel_of h)) as [W|W].
      * eapply i_chain; eauto.
      * lia.
      * intros s Hs. destruct (i_over _ _ _ _ I key s Hk Hs). lia.
      * eapply chain_len; eauto.
      * left. destruct W as [l1 [x [l2 [El [Hm [Hn [W1 W2]]]]]]].
        split; [exact N0|]. split; [reflexivity|]. exists l1, x, l2.
        destruct (i_over _ _ _ _ I key x Hk) as [Hx [Hx2 _]].
        { rewrite El. apply in_or_app. right. left. reflexivity. }
        repeat split; auto; try lia. rewrite Hw. exact W1.
      * right. destruct W as [Hn [W1 W2]].
        split; [exact N0|]. split; [reflexivity|]. split; [|split; [|split]].
        -- intros s L K. destruct (match_place s L K) as [->|Hin].
           ++ apply Hmt in K. congruence.
           ++ apply Hmt in K. rewrite Hn in K by exact Hin. discriminate.
        -- rewrite Hw. exact W1.
        -- exact W1.
        -- exact W2.
Qed.

End Find.

(** ** Pointwise changes of the array *)

(** Payload change of one live slot. *)
Lemma payload_inv h B F s n' h' :
  InvBF kd h B F -> live h s ->
  hsiz h' = hsiz h -> hmax h' = hmax h -> hnxt h' = hnxt h -> alen (hitem h') = alen (hitem h) ->
  (forall j, it h' j = if j =? s then n' else it h j) ->
  na n' = na (it h s) -> nb n' = nb (it h s) -> nnxt n' = nnxt (it h s) -> kd n' = kd (it h s) ->
  InvBF kd h' B F.
Proof.
  intros I L E1 E2 E3 E4 Hit Ea Eb En Ek.
  assert (Hna : forall j, na (it h' j) = na (it h j)).
  { intros j. rewrite Hit. destruct (Z.eqb_spec j s); [subst; exact Ea | reflexivity]. }
  assert (Hnb : forall j, nb (it h' j) = nb (it h j)).
  { intros j. rewrite Hit. destruct (Z.eqb_spec j s); [subst; exact Eb | reflexivity]. }
  assert (Hnx : forall j, nnxt (it h' j) = nnxt (it h j)).
  { intros j. rewrite Hit. destruct (Z.eqb_spec j s); [subst; exact En | reflexivity]. }
  assert (Hkd : forall j, kd (it h' j) = kd (it h j)).
  { intros j. rewrite Hit. destruct (Z.eqb_spec j s); [subst; exact Ek | reflexivity]. }
  destruct I as [i_siz0 i_len0 i_pos0 i_end0 i_chain0 i_empty0 i_over0 i_head0 i_reach0 i_uniq0 i_free0 i_freein0 i_freeall0 i_last0].
  constructor; unfold live in *; rewrite ?E1, ?E2, ?E3, ?E4; auto.
  - intros j Hj. rewrite Hna. auto.
  - rewrite Hna. auto.
  - intros k Hk. rewrite Hnx. eapply path_ext; [|apply i_chain0; exact Hk]. auto.
  - intros k Hk. rewrite Hna. auto.
  - intros k j Hk Hj. rewrite Hna, Hnb. auto.
  - intros k Hk. rewrite Hna, Hnb. auto.
  - intros j Hj. rewrite Hna, Hnb. auto.
  - intros j1 j2. rewrite !Hna, !Hkd. auto.
  - eapply path_ext; [|exact i_free0]. auto.
  - intros j Hj. rewrite Hna. auto.
  - intros j Hj. rewrite Hna. auto.
Qed.

(** A new entry in an empty bucket. *)
Lemma head_inv h B F key n' h' :
  InvBF kd h B F -> 0 <= key < hsiz h -> na (it h key) = 0 ->
  hsiz h' = hsiz h -> hmax h' = hmax h -> hnxt h' = hnxt h -> alen (hitem h') = alen (hitem h) ->
  (forall j, it h' j = if j =? key then n' else it h j) ->
  0 < na n' -> hkey (hsiz h) (na n') (nb n') = key -> nnxt n' = 0 -> absent kd h (kd n') ->
  InvBF kd h' B F.
Proof.
  intros I Hk E0 E1 E2 E3 E4 Hit Ha Hkey Hn Habs.
  pose proof (i_siz _ _ _ _ I) as Hsiz.
  assert (HB : B key = []) by (eapply i_empty; eauto).
  assert (Hsame : forall j, j <> key -> it h' j = it h j).
  { intros j Hj. rewrite Hit. destruct (Z.eqb_spec j key); congruence. }
  assert (Hkk : it h' key = n') by (rewrite Hit, Z.eqb_refl; reflexivity).
  destruct I as [i_siz0 i_len0 i_pos0 i_end0 i_chain0 i_empty0 i_over0 i_head0 i_reach0 i_uniq0 i_free0 i_freein0 i_freeall0 i_last0].
  constructor; unfold live in *; rewrite ?E1, ?E2, ?E3, ?E4; auto.
  - intros j Hj. destruct (Z.eq_dec j key) as [->|Nj]; [rewrite Hkk; lia | rewrite Hsame by auto; auto].
  - rewrite Hsame by lia. auto.
  - intros k Hk'. destruct (Z.eq_dec k key) as [->|Nk].
    + rewrite Hkk, HB. simpl. exact Hn.
    + rewrite Hsame by auto. eapply path_ext; [|apply i_chain0; exact Hk'].
      intros s Hs. destruct (i_over0 k s Hk' Hs) as [Hs2 _]. rewrite Hsame by lia. reflexivity.
  - intros k Hk'. destruct (Z.eq_dec k key) as [->|Nk]; [intros _; exact HB|]. rewrite Hsame by auto. auto.
  - intros k s Hk' Hs. destruct (i_over0 k s Hk' Hs) as [Hs2 _]. rewrite Hsame by lia. auto.
  - intros k Hk'. destruct (Z.eq_dec k key) as [->|Nk]; [rewrite Hkk; intros _; exact Hkey|].
    rewrite Hsame by auto. auto.
  - intros s Hs. rewrite Hsame by lia. auto.
  - intros s1 s2 L1 L2 K.
    destruct (Z.eq_dec s1 key) as [->|N1], (Z.eq_dec s2 key) as [->|N2]; auto.
    + rewrite Hkk in K. rewrite (Hsame s2) in * by auto. exfalso. apply (Habs s2); [exact L2 | auto].
    + rewrite Hkk in K. rewrite (Hsame s1) in * by auto. exfalso. apply (Habs s1); [exact L1 | auto].
    + rewrite (Hsame s1), (Hsame s2) in * by auto. auto.
  - eapply path_ext; [|exact i_free0]. intros s Hs. destruct (i_freein0 s Hs). rewrite Hsame by lia. reflexivity.
  - intros s Hs. destruct (i_freein0 s Hs). rewrite Hsame by lia. auto.
  - intros s Hs. rewrite Hsame by lia. auto.
Qed.

(** Appending the first free slot at the end of a chain. *)
Lemma append_inv h B f F' key p n' h' :
  InvBF kd h B (f :: F') -> 0 <= key < hsiz h -> na (it h key) <> 0 ->
  p = last (key :: B key) key ->
  hsiz h' = hsiz h -> hmax h' = hmax h -> hnxt h' = nnxt (it h f) -> alen (hitem h') = alen (hitem h) ->
  (forall j, it h' j = if j =? f then n' else if j =? p then set_nxt (it h p) f else it h j) ->
  0 < na n' -> hkey (hsiz h) (na n') (nb n') = key -> nnxt n' = 0 -> absent kd h (kd n') ->
  InvBF kd h' (upd B key (B key ++ [f])) F'.
Proof.
  intros I Hk Hlive Hp E1 E2 E3 E4 Hit Ha Hkey Hn Habs.
  pose proof (i_siz _ _ _ _ I) as Hsiz.
  destruct (i_freein _ _ _ _ I f (or_introl eq_refl)) as [Hf Hf0].
  assert (Hpin : p = key \/ In p (B key)).
  { rewrite Hp. destruct (last_in _ (B key) key key) as [E|E]; auto. }
  assert (Hpl : na (it h p) <> 0 /\ 0 <= p < hmax h).
  { destruct Hpin as [->|Hin]; [split; [exact Hlive | lia]|].
    destruct (i_over _ _ _ _ I key p Hk Hin) as [? [? ?]]. split; [auto | lia]. }
  assert (Hpf : p <> f) by (intros ->; destruct Hpl; congruence).
  assert (Hff : it h' f = n') by (rewrite Hit, Z.eqb_refl; reflexivity).
  assert (Hpp : it h' p = set_nxt (it h p) f).
  { rewrite Hit. destruct (Z.eqb_spec p f); [congruence|]. rewrite Z.eqb_refl. reflexivity. }
  assert (Hsame : forall j, j <> f -> j <> p -> it h' j = it h j).
  { intros j Nf Np. rewrite Hit. destruct (Z.eqb_spec j f), (Z.eqb_spec j p); congruence. }
  assert (Hna : forall j, j <> f -> na (it h' j) = na (it h j)).
  { intros j Nf. destruct (Z.eq_dec j p) as [->|Np]; [rewrite Hpp; reflexivity | rewrite Hsame by auto; reflexivity]. }
  assert (Hnb : forall j, j <> f -> nb (it h' j) = nb (it h j)).
  { intros j Nf. destruct (Z.eq_dec j p) as [->|Np]; [rewrite Hpp; reflexivity | rewrite Hsame by auto; reflexivity]. }
  assert (Hkd : forall j, j <> f -> kd (it h' j) = kd (it h j)).
  { intros j Nf. destruct (Z.eq_dec j p) as [->|Np]; [rewrite Hpp; apply (kd_nxt _ KD) | rewrite Hsame by auto; reflexivity]. }
  assert (Hoverf : forall k s, 0 <= k < hsiz h -> In s (B k) -> s <> f).
  { intros k s Hk' Hs ->. destruct (i_over _ _ _ _ I k f Hk' Hs) as [_ [Hx _]]. congruence. }
  assert (Hoverp : forall k s, 0 <= k < hsiz h -> k <> key -> In s (B k) -> s <> p).
  { intros k s Hk' Nk Hs ->. destruct (i_over _ _ _ _ I k p Hk' Hs) as [Hx [_ Hy]].
    destruct Hpin as [->|Hin]; [lia|].
    destruct (i_over _ _ _ _ I key p Hk Hin) as [_ [_ Hz]]. congruence. }
  pose proof I as I'. destruct I' as [i_siz0 i_len0 i_pos0 i_end0 i_chain0 i_empty0 i_over0 i_head0 i_reach0 i_uniq0 i_free0 i_freein0 i_freeall0 i_last0].
  constructor; unfold live in *; rewrite ?E1, ?E2, ?E4; auto.
  - intros j Hj. destruct (Z.eq_dec j f) as [->|Nj]; [rewrite Hff; lia | rewrite Hna by auto; auto].
  - rewrite Hna by lia. auto.
  - intros k Hk'. unfold upd. destruct (Z.eqb_spec k key) as [->|Nk].
    + pose proof (i_chain0 key Hk) as Hc.
      destruct (B key) as [|x l] eqn:EB using rev_ind.
      * simpl in Hp. subst p. rewrite Hpp. simpl. repeat split; [lia|]. rewrite Hff. exact Hn.
      * clear IHl.
        assert (Hpx : p = x).
        { rewrite Hp. rewrite app_comm_cons. apply last_last. }
        assert (Hkp : key <> p).
        { subst p. destruct (i_over0 key x Hk) as [? _]; [rewrite EB; apply in_or_app; right; left; reflexivity|]. lia. }
        rewrite Hsame by (auto; lia).
        rewrite <- app_assoc. simpl.
        eapply path_snoc; [exact Hc| | |lia|].
        -- intros s Hs. rewrite Hsame; [reflexivity| |].
           ++ apply (Hoverf key); auto. rewrite EB. apply in_or_app. left. exact Hs.
           ++ rewrite Hpx. pose proof (path_nodup _ _ _ _ Hc) as Hnd. apply NoDup_remove_2 in Hnd.
              rewrite app_nil_r in Hnd. intros ->. exact (Hnd Hs).
        -- rewrite <- Hpx, Hpp. reflexivity.
        -- rewrite Hff. exact Hn.
    + assert (Nkp : k <> p). { destruct Hpin as [->|Hin]; [auto|]. destruct (i_over0 key p Hk Hin). lia. }
      rewrite Hsame by (auto; lia).
      eapply path_ext; [|apply i_chain0; exact Hk'].
      intros s Hs. rewrite Hsame; eauto.
  - intros k Hk'. rewrite Hna by lia. intros Hz. unfold upd.
    destruct (Z.eqb_spec k key) as [->|Nk]; [congruence | auto].
  - intros k s Hk'. unfold upd. destruct (Z.eqb_spec k key) as [->|Nk].
    + intros Hs. apply in_app_or in Hs. destruct Hs as [Hs|[<-|[]]].
      * rewrite Hna, Hnb by eauto. auto.
      * rewrite Hff. repeat split; lia || exact Hkey.
    + intros Hs. rewrite Hna, Hnb by eauto. auto.
  - intros k Hk'. rewrite Hna, Hnb by lia. auto.
  - intros s Hs. destruct (Z.eq_dec s f) as [->|Ns].
    + rewrite Hff, Hkey. intros _. split; [exact Hk|]. rewrite upd_same. apply in_or_app. right. left. reflexivity.
    + rewrite Hna, Hnb by auto. intros Hl. destruct (i_reach0 s Hs Hl) as [R1 R2]. split; [exact R1|].
      unfold upd. destruct (Z.eqb_spec (hkey (hsiz h) (na (it h s)) (nb (it h s))) key) as [Ek|Ek].
      * apply in_or_app. left. congruence.
      * exact R2.
  - intros s1 s2 L1 L2 K.
    destruct (Z.eq_dec s1 f) as [->|N1], (Z.eq_dec s2 f) as [->|N2]; auto.
    + rewrite Hff, (Hkd s2) in K by auto. rewrite (Hna s2) in L2 by auto. exfalso. apply (Habs s2); [exact L2 | auto].
    + rewrite Hff, (Hkd s1) in K by auto. rewrite (Hna s1) in L1 by auto. exfalso. apply (Habs s1); [exact L1 | auto].
    + rewrite (Hkd s1), (Hkd s2) in K by auto. rewrite (Hna s1) in L1 by auto. rewrite (Hna s2) in L2 by auto. auto.
  - rewrite E3. simpl in i_free0. destruct i_free0 as [_ [_ Hpath]].
    pose proof (path_nodup _ _ _ _ (i_free _ _ _ _ I)) as Hnd. inversion Hnd as [|? ? Hnf _]. subst.
    eapply path_ext; [|exact Hpath]. intros s Hs.
    destruct (i_freein0 s (or_intror Hs)) as [Hx Hy].
    rewrite Hsame; [reflexivity | intros ->; auto | intros ->; destruct Hpl; congruence].
  - intros s Hs.
    pose proof (path_nodup _ _ _ _ (i_free _ _ _ _ I)) as Hnd. inversion Hnd as [|? ? Hnf _]. subst.
    rewrite Hna by (intros ->; auto). apply i_freein0. right. exact Hs.
  - intros s Hs. destruct (Z.eq_dec s f) as [->|Ns]; [rewrite Hff; lia|].
    rewrite Hna by auto. intros Hz. destruct (i_freeall0 s Hs Hz) as [->|Hin]; [congruence | exact Hin].
  - destruct i_last0 as [Hx|[F0 HF]]; [discriminate|].
    destruct F0 as [|y F0]; simpl in HF; inversion HF; [left; reflexivity | right; exists F0; reflexivity].
Qed.

(** Growth of the array. *)
Lemma grow_inv h B F g h' :
  InvBF kd h B F -> 1 <= g ->
  hsiz h' = hsiz h -> hmax h' = hmax h + g -> hnxt h' = hnxt h -> alen (hitem h') = hmax h + g + 1 ->
  (forall j, 0 <= j <= hmax h + g -> it h' j =
     if (hmax h <=? j) && (j <? hmax h + g) then set_nxt (if j <=? hmax h then it h j else node0) (j + 1)
     else if j <=? hmax h then it h j else node0) ->
  InvBF kd h' B (F ++ seqZ (hmax h) (hmax h + g)).
Proof.
  intros I Hg E1 E2 E3 E4 Hit.
  pose proof (i_siz _ _ _ _ I) as Hsiz.
  assert (Hold : forall j, 0 <= j < hmax h -> it h' j = it h j).
  { intros j Hj. rewrite Hit by lia. destruct (Z.leb_spec (hmax h) j); [lia|]. simpl.
    destruct (Z.leb_spec j (hmax h)); [reflexivity|lia]. }
  assert (Hnew : forall j, hmax h <= j <= hmax h + g -> na (it h' j) = 0).
  { intros j Hj. rewrite Hit by lia.
    destruct (_ && _); simpl; destruct (Z.leb_spec j (hmax h)); try reflexivity;
      replace j with (hmax h) by lia; apply (i_end _ _ _ _ I). }
  destruct I as [i_siz0 i_len0 i_pos0 i_end0 i_chain0 i_empty0 i_over0 i_head0 i_reach0 i_uniq0 i_free0 i_freein0 i_freeall0 i_last0].
  constructor; unfold live in *; rewrite ?E1, ?E2, ?E3, ?E4; auto; try lia.
  - intros j Hj. destruct (Z_lt_le_dec j (hmax h)); [rewrite Hold by lia; apply i_pos0; lia | rewrite Hnew; lia].
  - apply Hnew; lia.
  - intros k Hk. rewrite Hold by lia. eapply path_ext; [|apply i_chain0; exact Hk].
    intros s Hs. destruct (i_over0 k s Hk Hs). rewrite Hold by lia. reflexivity.
  - intros k Hk. rewrite Hold by lia. auto.
  - intros k s Hk Hs. destruct (i_over0 k s Hk Hs) as [? [? ?]]. rewrite Hold by lia. repeat split; auto; lia.
  - intros k Hk. rewrite Hold by lia. auto.
  - intros s Hs Hl. destruct (Z_lt_le_dec s (hmax h)).
    + rewrite Hold in * by lia. apply i_reach0; [lia | exact Hl].
    + rewrite Hnew in Hl by lia. congruence.
  - intros s1 s2 [H1 L1] [H2 L2] K.
    destruct (Z_lt_le_dec s1 (hmax h)); [|rewrite Hnew in L1 by lia; congruence].
    destruct (Z_lt_le_dec s2 (hmax h)); [|rewrite Hnew in L2 by lia; congruence].
    rewrite (Hold s1), (Hold s2) in * by lia. apply i_uniq0; auto; split; auto; lia.
  - eapply path_app with (m := hmax h).
    + eapply path_ext; [|exact i_free0]. intros s Hs. destruct (i_freein0 s Hs). rewrite Hold by lia. reflexivity.
    + apply path_contiguous; [lia|]. intros s Hs. rewrite Hit by lia.
      destruct (Z.leb_spec (hmax h) s), (Z.ltb_spec s (hmax h + g)); simpl; reflexivity || lia.
    + intros Hin. destruct (i_freein0 _ Hin). lia.
  - intros s Hs. apply in_app_or in Hs. destruct Hs as [Hs|Hs].
    + destruct (i_freein0 s Hs). rewrite Hold by lia. split; [lia | auto].
    + apply seqZ_in in Hs. split; [lia | apply Hnew; lia].
  - intros s Hs Hz. apply in_or_app. destruct (Z_lt_le_dec s (hmax h)).
    + left. apply i_freeall0; [lia|]. rewrite Hold in Hz by lia. exact Hz.
    + right. apply seqZ_in. lia.
  - right. destruct (seqZ_last (hmax h) (hmax h + g)) as [l El]; [lia|]. rewrite El, app_assoc.
    eexists. reflexivity.
Qed.

(** Removal of the only entry of a bucket. *)
Lemma pop_single_inv h B F key h' :
  InvBF kd h B F -> 0 <= key < hsiz h -> nnxt (it h key) = 0 ->
  hsiz h' = hsiz h -> hmax h' = hmax h -> hnxt h' = hnxt h -> alen (hitem h') = alen (hitem h) ->
  (forall j, it h' j = if j =? key then node0 else it h j) ->
  InvBF kd h' B F.
Proof.
  intros I Hk Hn E1 E2 E3 E4 Hit.
  pose proof (i_siz _ _ _ _ I) as Hsiz.
  assert (Hsame : forall j, j <> key -> it h' j = it h j).
  { intros j Hj. rewrite Hit. destruct (Z.eqb_spec j key); congruence. }
  assert (Hkk : it h' key = node0) by (rewrite Hit, Z.eqb_refl; reflexivity).
  assert (HB : B key = []).
  { pose proof (i_chain _ _ _ _ I key Hk) as Hc. rewrite Hn in Hc. destruct (B key); [reflexivity|].
    simpl in Hc. destruct Hc as [? [? ?]]. congruence. }
  destruct I as [i_siz0 i_len0 i_pos0 i_end0 i_chain0 i_empty0 i_over0 i_head0 i_reach0 i_uniq0 i_free0 i_freein0 i_freeall0 i_last0].
  constructor; unfold live in *; rewrite ?E1, ?E2, ?E3, ?E4; auto.
  - intros j Hj. destruct (Z.eq_dec j key) as [->|Nj]; [rewrite Hkk; simpl; lia | rewrite Hsame by auto; auto].
  - rewrite Hsame by lia. auto.
  - intros k Hk'. destruct (Z.eq_dec k key) as [->|Nk].
    + rewrite Hkk, HB. reflexivity.
    + rewrite Hsame by auto. eapply path_ext; [|apply i_chain0; exact Hk'].
      intros s Hs. destruct (i_over0 k s Hk' Hs) as [Hs2 _]. rewrite Hsame by lia. reflexivity.
  - intros k Hk'. destruct (Z.eq_dec k key) as [->|Nk]; [auto|]. rewrite Hsame by auto. auto.
  - intros k s Hk' Hs. destruct (i_over0 k s Hk' Hs) as [Hs2 _]. rewrite Hsame by lia. auto.
  - intros k Hk'. destruct (Z.eq_dec k key) as [->|Nk]; [rewrite Hkk; simpl; congruence|].
    rewrite Hsame by auto. auto.
  - intros s Hs. rewrite Hsame by lia. auto.
  - intros s1 s2 L1 L2 K.
    destruct (Z.eq_dec s1 key) as [->|N1]; [rewrite Hkk in L1; simpl in L1; lia|].
    destruct (Z.eq_dec s2 key) as [->|N2]; [rewrite Hkk in L2; simpl in L2; lia|].
    rewrite (Hsame s1), (Hsame s2) in * by auto. auto.
  - eapply path_ext; [|exact i_free0]. intros s Hs. destruct (i_freein0 s Hs). rewrite Hsame by lia. reflexivity.
  - intros s Hs. destruct (i_freein0 s Hs). rewrite Hsame by lia. auto.
  - intros s Hs. rewrite Hsame by lia. auto.
Qed.

(** Removal of a head that has a successor [x]: [x] is copied over the head and freed. *)
Lemma pop_head_inv h B F key x l h' :
  InvBF kd h B F -> F <> [] -> 0 <= key < hsiz h -> na (it h key) <> 0 -> B key = x :: l ->
  hsiz h' = hsiz h -> hmax h' = hmax h -> hnxt h' = x -> alen (hitem h') = alen (hitem h) ->
  (forall j, it h' j = if j =? x then set_nxt node0 (hnxt h) else if j =? key then it h x else it h j) ->
  InvBF kd h' (upd B key l) (x :: F).
Proof.
  intros I HF Hk Hl HB E1 E2 E3 E4 Hit.
  pose proof (i_siz _ _ _ _ I) as Hsiz.
  assert (Hxin : In x (B key)) by (rewrite HB; left; reflexivity).
  destruct (i_over _ _ _ _ I key x Hk Hxin) as [Hx [Hxl Hxk]].
  assert (Hxx : it h' x = set_nxt node0 (hnxt h)) by (rewrite Hit, Z.eqb_refl; reflexivity).
  assert (Hkk : it h' key = it h x).
  { rewrite Hit. destruct (Z.eqb_spec key x); [lia|]. rewrite Z.eqb_refl. reflexivity. }
  assert (Hsame : forall j, j <> key -> j <> x -> it h' j = it h j).
  { intros j N1 N2. rewrite Hit. destruct (Z.eqb_spec j x), (Z.eqb_spec j key); congruence. }
  assert (Hother : forall k s, 0 <= k < hsiz h -> k <> key -> In s (B k) -> s <> x).
  { intros k s Hk' Nk Hs ->. destruct (i_over _ _ _ _ I k x Hk' Hs) as [_ [_ Hy]]. congruence. }
  pose proof (path_nodup _ _ _ _ (i_chain _ _ _ _ I key Hk)) as Hnd. rewrite HB in Hnd.
  assert (Hxl2 : ~ In x l) by (inversion Hnd; assumption).
  pose proof I as I'. destruct I' as [i_siz0 i_len0 i_pos0 i_end0 i_chain0 i_empty0 i_over0 i_head0 i_reach0 i_uniq0 i_free0 i_freein0 i_freeall0 i_last0].
  constructor; unfold live in *; rewrite ?E1, ?E2, ?E4; auto.
  - intros j Hj. destruct (Z.eq_dec j x) as [->|Nj]; [rewrite Hxx; simpl; lia|].
    destruct (Z.eq_dec j key) as [->|Nk]; [rewrite Hkk; apply i_pos0; lia | rewrite Hsame by auto; auto].
  - rewrite Hsame by lia. auto.
  - intros k Hk'. unfold upd. destruct (Z.eqb_spec k key) as [->|Nk].
    + rewrite Hkk. pose proof (i_chain0 key Hk) as Hc. rewrite HB in Hc. simpl in Hc. destruct Hc as [_ [_ Hc]].
      eapply path_ext; [|exact Hc]. intros s Hs.
      destruct (i_over0 key s Hk) as [? _]; [rewrite HB; right; exact Hs|].
      rewrite Hsame; [reflexivity | lia | intros ->; auto].
    + rewrite Hsame by lia. eapply path_ext; [|apply i_chain0; exact Hk'].
      intros s Hs. destruct (i_over0 k s Hk' Hs) as [? _]. rewrite Hsame; [reflexivity | lia | eauto].
  - intros k Hk'. unfold upd. destruct (Z.eqb_spec k key) as [->|Nk]; [rewrite Hkk; congruence|].
    rewrite Hsame by lia. auto.
  - intros k s Hk'. unfold upd. destruct (Z.eqb_spec k key) as [->|Nk].
    + intros Hs. assert (In s (B key)) by (rewrite HB; right; exact Hs).
      destruct (i_over0 key s Hk H) as [? _]. rewrite Hsame; [auto | lia | intros ->; auto].
    + intros Hs. destruct (i_over0 k s Hk' Hs) as [? _]. rewrite Hsame; [auto | lia | eauto].
  - intros k Hk'. destruct (Z.eq_dec k key) as [->|Nk]; [rewrite Hkk; auto|].
    rewrite Hsame by lia. auto.
  - intros s Hs. destruct (Z.eq_dec s x) as [->|Ns]; [rewrite Hxx; simpl; congruence|].
    rewrite Hsame by lia. intros Hls. destruct (i_reach0 s Hs Hls) as [R1 R2]. split; [exact R1|].
    unfold upd. destruct (Z.eqb_spec (hkey (hsiz h) (na (it h s)) (nb (it h s))) key) as [Ek|Ek]; [|exact R2].
    rewrite Ek, HB in R2. destruct R2; [congruence | auto].
  - intros s1 s2 L1 L2 K.
    assert (C : forall s, 0 <= s < hmax h /\ na (it h' s) <> 0 ->
       exists s', it h' s = it h s' /\ (0 <= s' < hmax h /\ na (it h s') <> 0) /\ s <> x
                  /\ ((s = key /\ s' = x) \/ (s <> key /\ s' = s))).
    { intros s [Hs HL]. destruct (Z.eq_dec s x) as [->|N1]; [rewrite Hxx in HL; simpl in HL; lia|].
      destruct (Z.eq_dec s key) as [->|N2].
      - exists x. repeat split; auto; lia.
      - exists s. rewrite Hsame in * by auto. repeat split; auto; lia. }
    destruct (C s1 L1) as [t1 [Et1 [L1' [N1 C1]]]]. destruct (C s2 L2) as [t2 [Et2 [L2' [N2 C2]]]].
    rewrite Et1, Et2 in K. pose proof (i_uniq0 t1 t2 L1' L2' K). lia.
  - rewrite E3. simpl. split; [reflexivity|]. split; [lia|]. rewrite Hxx. simpl.
    eapply path_ext; [|exact i_free0]. intros s Hs. destruct (i_freein0 s Hs) as [Hs1 Hs2].
    rewrite Hsame; [reflexivity | lia | intros ->; congruence].
  - intros s [<-|Hs].
    + rewrite Hxx. split; [lia | reflexivity].
    + destruct (i_freein0 s Hs) as [Hs1 Hs2]. rewrite Hsame; [auto | lia | intros ->; congruence].
  - intros s Hs. destruct (Z.eq_dec s x) as [->|Ns]; [left; reflexivity|].
    rewrite Hsame by lia. intros Hz. right. auto.
  - destruct i_last0 as [->|[F0 ->]]; [congruence|]. right. exists (x :: F0). reflexivity.
Qed.

(** Removal of a slot [x] that follows [p] in a chain. *)
Lemma pop_mid_inv h B F key l1 x l2 p h' :
  InvBF kd h B F -> F <> [] -> 0 <= key < hsiz h -> B key = l1 ++ x :: l2 ->
  p = last (key :: l1) key ->
  hsiz h' = hsiz h -> hmax h' = hmax h -> hnxt h' = x -> alen (hitem h') = alen (hitem h) ->
  (forall j, it h' j = if j =? x then set_nxt node0 (hnxt h)
                       else if j =? p then set_nxt (it h p) (nnxt (it h x)) else it h j) ->
  InvBF kd h' (upd B key (l1 ++ l2)) (x :: F).
Proof.
  intros I HF Hk HB Hp E1 E2 E3 E4 Hit.
  pose proof (i_siz _ _ _ _ I) as Hsiz.
  assert (Hxin : In x (B key)) by (rewrite HB; apply in_or_app; right; left; reflexivity).
  destruct (i_over _ _ _ _ I key x Hk Hxin) as [Hx [Hxl Hxk]].
  pose proof (path_nodup _ _ _ _ (i_chain _ _ _ _ I key Hk)) as Hnd. rewrite HB in Hnd.
  pose proof (NoDup_remove_2 _ _ _ Hnd) as Hxn.
  assert (Hpin : p = key \/ In p l1).
  { rewrite Hp. destruct (last_in _ l1 key key) as [E|E]; auto. }
  assert (Hpx : p <> x).
  { intros ->. destruct Hpin as [->|Hin]; [lia|]. apply Hxn. apply in_or_app. auto. }
  assert (Hxx : it h' x = set_nxt node0 (hnxt h)) by (rewrite Hit, Z.eqb_refl; reflexivity).
  assert (Hpp : it h' p = set_nxt (it h p) (nnxt (it h x))).
  { rewrite Hit. destruct (Z.eqb_spec p x); [congruence|]. rewrite Z.eqb_refl. reflexivity. }
  assert (Hsame : forall j, j <> p -> j <> x -> it h' j = it h j).
  { intros j N1 N2. rewrite Hit. destruct (Z.eqb_spec j x), (Z.eqb_spec j p); congruence. }
  assert (Hna : forall j, j <> x -> na (it h' j) = na (it h j)).
  { intros j N. destruct (Z.eq_dec j p) as [->|Np]; [rewrite Hpp; reflexivity | rewrite Hsame by auto; reflexivity]. }
  assert (Hnb : forall j, j <> x -> nb (it h' j) = nb (it h j)).
  { intros j N. destruct (Z.eq_dec j p) as [->|Np]; [rewrite Hpp; reflexivity | rewrite Hsame by auto; reflexivity]. }
  assert (Hkd : forall j, j <> x -> kd (it h' j) = kd (it h j)).
  { intros j N. destruct (Z.eq_dec j p) as [->|Np]; [rewrite Hpp; apply (kd_nxt _ KD) | rewrite Hsame by auto; reflexivity]. }
  assert (Hpin2 : p = key \/ In p (B key)).
  { destruct Hpin; [auto|]. right. rewrite HB. apply in_or_app. auto. }
  assert (Hpna : na (it h p) <> 0).
  { destruct Hpin2 as [->|Hin].
    - intros E. rewrite (i_empty _ _ _ _ I key Hk E) in Hxin. destruct Hxin.
    - destruct (i_over _ _ _ _ I key p Hk Hin) as [_ [Hy _]]. exact Hy. }
  assert (Hother : forall k s, 0 <= k < hsiz h -> k <> key -> In s (B k) -> s <> x /\ s <> p).
  { intros k s Hk' Nk Hs. destruct (i_over _ _ _ _ I k s Hk' Hs) as [Hz [_ Hy]].
    split; intros ->; [congruence|]. destruct Hpin2 as [->|Hin]; [lia|].
    destruct (i_over _ _ _ _ I key p Hk Hin) as [_ [_ Hw]]. congruence. }
  assert (Hl12 : forall s, In s (l1 ++ l2) -> In s (B key) /\ s <> x).
  { intros s Hs. split; [|intros ->; auto]. rewrite HB. apply in_app_or in Hs. apply in_or_app.
    destruct Hs; [auto | right; right; auto]. }
  pose proof I as I'. destruct I' as [i_siz0 i_len0 i_pos0 i_end0 i_chain0 i_empty0 i_over0 i_head0 i_reach0 i_uniq0 i_free0 i_freein0 i_freeall0 i_last0].
  constructor; unfold live in *; rewrite ?E1, ?E2, ?E4; auto.
  - intros j Hj. destruct (Z.eq_dec j x) as [->|Nj]; [rewrite Hxx; simpl; lia|]. rewrite Hna by auto. auto.
  - rewrite Hna by lia. auto.
  - intros k Hk'. unfold upd. destruct (Z.eqb_spec k key) as [->|Nk].
    + pose proof (i_chain0 key Hk) as Hc. rewrite HB in Hc.
      assert (Hl2 : forall s, In s l2 -> it h' s = it h s).
      { intros s Hs. destruct (Hl12 s) as [H1 H2]; [apply in_or_app; auto|].
        apply Hsame; [|exact H2]. intros ->. destruct Hpin as [->|Hin].
        - destruct (i_over0 key key Hk H1). lia.
        - apply in_split in Hin. destruct Hin as [m1 [m2 Em]]. rewrite Em, <- app_assoc in Hnd. simpl in Hnd.
          apply NoDup_remove_2 in Hnd. apply Hnd. apply in_or_app. right. apply in_or_app. right. right. exact Hs. }
      destruct l1 as [|y l1] using rev_ind; [|clear IHl1].
      * simpl in Hp. subst p. rewrite Hpp. simpl in *. destruct Hc as [_ [_ Hc]].
        eapply path_ext; [|exact Hc]. intros s Hs. rewrite Hl2 by exact Hs. reflexivity.
      * assert (Epy : p = y) by (rewrite Hp, app_comm_cons; apply last_last). subst y.
        assert (Nkp : key <> p).
        { intros E. destruct (i_over0 key p Hk) as [? _]; [|lia]. rewrite HB. rewrite <- app_assoc.
          apply in_or_app. right. left. reflexivity. }
        rewrite Hsame by (auto; lia).
        rewrite <- app_assoc in Hc |- *. simpl in Hc |- *.
        eapply path_unlink; [exact Hc| | |].
        -- intros s Hs. rewrite Hsame; [reflexivity| |].
           ++ intros ->. rewrite <- app_assoc in Hnd. simpl in Hnd. apply NoDup_remove_2 in Hnd.
              apply Hnd. apply in_or_app. left. exact Hs.
           ++ intros ->. apply Hxn. apply in_or_app. left. apply in_or_app. left. exact Hs.
        -- rewrite Hpp. reflexivity.
        -- intros s Hs. rewrite Hl2 by exact Hs. reflexivity.
    + assert (Nkp : k <> p). { destruct Hpin2 as [->|Hin]; [auto|]. destruct (i_over0 key p Hk Hin). lia. }
      rewrite Hsame by (auto; lia). eapply path_ext; [|apply i_chain0; exact Hk'].
      intros s Hs. destruct (Hother k s Hk' Nk Hs). rewrite Hsame by auto. reflexivity.
  - intros k Hk'. rewrite Hna by lia. intros Hz. unfold upd. destruct (Z.eqb_spec k key) as [->|Nk]; [|auto].
    rewrite (i_empty0 key Hk Hz) in Hxin. destruct Hxin.
  - intros k s Hk'. unfold upd. destruct (Z.eqb_spec k key) as [->|Nk]; intros Hs.
    + destruct (Hl12 s Hs). rewrite Hna, Hnb by auto. auto.
    + destruct (Hother k s Hk' Nk Hs). rewrite Hna, Hnb by auto. auto.
  - intros k Hk'. rewrite Hna, Hnb by lia. auto.
  - intros s Hs. destruct (Z.eq_dec s x) as [->|Ns]; [rewrite Hxx; simpl; congruence|].
    rewrite Hna, Hnb by auto. intros Hls. destruct (i_reach0 s Hs Hls) as [R1 R2]. split; [exact R1|].
    unfold upd. destruct (Z.eqb_spec (hkey (hsiz h) (na (it h s)) (nb (it h s))) key) as [Ek|Ek]; [|exact R2].
    rewrite Ek, HB in R2. apply in_app_or in R2. apply in_or_app. destruct R2 as [R2|[R2|R2]]; [auto | congruence | auto].
  - intros s1 s2 L1 L2 K.
    destruct (Z.eq_dec s1 x) as [->|N1]; [rewrite Hxx in L1; simpl in L1; lia|].
    destruct (Z.eq_dec s2 x) as [->|N2]; [rewrite Hxx in L2; simpl in L2; lia|].
    rewrite (Hkd s1), (Hkd s2) in K by auto. rewrite (Hna s1) in L1 by auto. rewrite (Hna s2) in L2 by auto. auto.
  - rewrite E3. simpl. split; [reflexivity|]. split; [lia|]. rewrite Hxx. simpl.
    eapply path_ext; [|exact i_free0]. intros s Hs. destruct (i_freein0 s Hs) as [Hs1 Hs2].
    rewrite Hsame; [reflexivity | intros ->; congruence | intros ->; congruence].
  - intros s [<-|Hs].
    + rewrite Hxx. split; [lia | reflexivity].
    + destruct (i_freein0 s Hs) as [Hs1 Hs2]. rewrite Hna; [auto | intros ->; congruence].
  - intros s Hs. destruct (Z.eq_dec s x) as [->|Ns]; [left; reflexivity|].
    rewrite Hna by auto. intros Hz. right. auto.
  - destruct i_last0 as [->|[F0 ->]]; [congruence|]. right. exists (x :: F0). reflexivity.
Qed.

(** ** Effect on the contents *)

Definition sig (n : node) : (Z * Z * Z) * Z * Z := (kd n, nk n, ntag n).

Lemma holds_put h h' n' :
  (forall s, live h' s -> sig (it h' s) = sig n' \/
      (exists s0, live h s0 /\ sig (it h' s) = sig (it h s0) /\ kd (it h s0) <> kd n')) ->
  (forall s, live h s -> kd (it h s) <> kd n' -> exists s', live h' s' /\ sig (it h' s') = sig (it h s)) ->
  (exists s', live h' s' /\ sig (it h' s') = sig n') ->
  forall q k t, holds kd h' q k t <->
    (q = kd n' /\ k = nk n' /\ t = ntag n') \/ (q <> kd n' /\ holds kd h q k t).
Proof.
  unfold sig. intros H1 H2 [s0 [L0 E0]] q k t. split.
  - intros [s [L [K [Ek Et]]]]. destruct (H1 s L) as [E|[s1 [L1 [E N]]]]; inversion E; subst.
    + left. repeat split; congruence.
    + right. split; [congruence|]. exists s1. split; [exact L1|]. repeat split; congruence.
  - intros [[-> [-> ->]]|[N [s [L [K [Ek Et]]]]]].
    + exists s0. inversion E0. split; [exact L0|]. repeat split; congruence.
    + destruct (H2 s L) as [s' [L' E]]; [congruence|]. exists s'. inversion E.
      split; [exact L'|]. repeat split; congruence.
Qed.

Lemma holds_del h h' q0 :
  (forall s, live h' s -> exists s0, live h s0 /\ sig (it h' s) = sig (it h s0) /\ kd (it h s0) <> q0) ->
  (forall s, live h s -> kd (it h s) <> q0 -> exists s', live h' s' /\ sig (it h' s') = sig (it h s)) ->
  forall q k t, holds kd h' q k t <-> (q <> q0 /\ holds kd h q k t).
Proof.
  unfold sig. intros H1 H2 q k t. split.
  - intros [s [L [K [Ek Et]]]]. destruct (H1 s L) as [s1 [L1 [E N]]]; inversion E; subst.
    split; [congruence|]. exists s1. split; [exact L1|]. repeat split; congruence.
  - intros [N [s [L [K [Ek Et]]]]].
    destruct (H2 s L) as [s' [L' E]]; [congruence|]. exists s'. inversion E.
    split; [exact L'|]. repeat split; congruence.
Qed.

Lemma sig_nxt n x : sig (set_nxt n x) = sig n.
Proof. unfold sig. rewrite (kd_nxt _ KD). reflexivity. Qed.

Lemma payload_holds h B F s n' h' :
  InvBF kd h B F -> live h s -> hmax h' = hmax h ->
  (forall j, it h' j = if j =? s then n' else it h j) ->
  na n' = na (it h s) -> kd n' = kd (it h s) ->
  forall q k t, holds kd h' q k t <->
    (q = kd n' /\ k = nk n' /\ t = ntag n') \/ (q <> kd n' /\ holds kd h q k t).
Proof.
  intros I L E2 Hit Ea Ek. apply holds_put.
  - intros j [Hj Hl]. rewrite E2 in Hj. rewrite Hit in *.
    destruct (Z.eqb_spec j s) as [->|N]; [left; reflexivity|].
    right. exists j. split; [split; auto; lia|]. split; [reflexivity|]. rewrite Ek. intros E. apply N.
    eapply i_uniq; eauto. split; auto.
  - intros j [Hj Hl] N. exists j. rewrite Hit. destruct (Z.eqb_spec j s) as [->|N2]; [congruence|].
    split; [|reflexivity]. split; [lia|]. rewrite Hit. destruct (Z.eqb_spec j s); congruence.
  - exists s. rewrite Hit, Z.eqb_refl. split; [|reflexivity]. destruct L. split; [lia|].
    rewrite Hit, Z.eqb_refl. congruence.
Qed.

Lemma head_holds h key n' h' :
  na (it h key) = 0 -> hmax h' = hmax h -> 0 <= key < hmax h ->
  (forall j, it h' j = if j =? key then n' else it h j) ->
  0 < na n' -> absent kd h (kd n') ->
  forall q k t, holds kd h' q k t <->
    (q = kd n' /\ k = nk n' /\ t = ntag n') \/ (q <> kd n' /\ holds kd h q k t).
Proof.
  intros E0 E2 Hk Hit Ha Habs. apply holds_put.
  - intros j [Hj Hl]. rewrite E2 in Hj. rewrite Hit in *.
    destruct (Z.eqb_spec j key) as [->|N]; [left; reflexivity|].
    right. exists j. assert (live h j) by (split; auto; lia). split; [assumption|]. split; auto.
  - intros j [Hj Hl] N. exists j. rewrite Hit. destruct (Z.eqb_spec j key) as [->|N2]; [congruence|].
    split; [|reflexivity]. split; [lia|]. rewrite Hit. destruct (Z.eqb_spec j key); congruence.
  - exists key. rewrite Hit, Z.eqb_refl. split; [|reflexivity]. split; [lia|].
    rewrite Hit, Z.eqb_refl. lia.
Qed.

Lemma append_holds h f p n' h' :
  na (it h f) = 0 -> 0 <= f < hmax h -> p <> f -> hmax h' = hmax h ->
  (forall j, it h' j = if j =? f then n' else if j =? p then set_nxt (it h p) f else it h j) ->
  0 < na n' -> absent kd h (kd n') ->
  forall q k t, holds kd h' q k t <->
    (q = kd n' /\ k = nk n' /\ t = ntag n') \/ (q <> kd n' /\ holds kd h q k t).
Proof.
  intros E0 Hf Npf E2 Hit Ha Habs.
  assert (Hsg : forall j, j <> f -> sig (it h' j) = sig (it h j) /\ na (it h' j) = na (it h j)).
  { intros j N. rewrite Hit. destruct (Z.eqb_spec j f); [congruence|].
    destruct (Z.eqb_spec j p) as [->|N2]; [rewrite sig_nxt; auto | auto]. }
  apply holds_put.
  - intros j [Hj Hl]. rewrite E2 in Hj.
    destruct (Z.eq_dec j f) as [->|N]; [left; rewrite Hit, Z.eqb_refl; reflexivity|].
    right. exists j. destruct (Hsg j N) as [S1 S2]. rewrite S2 in Hl.
    assert (live h j) by (split; auto; lia). split; [assumption|]. split; auto.
  - intros j [Hj Hl] N. exists j. assert (N2 : j <> f) by congruence. destruct (Hsg j N2) as [S1 S2].
    split; [|exact S1]. split; [lia|]. congruence.
  - exists f. assert (it h' f = n') as -> by (rewrite Hit, Z.eqb_refl; reflexivity). split; [|reflexivity].
    split; [lia|]. rewrite Hit, Z.eqb_refl. lia.
Qed.

Lemma grow_holds h B F g h' :
  InvBF kd h B F -> 1 <= g -> hmax h' = hmax h + g ->
  (forall j, 0 <= j <= hmax h + g -> it h' j =
     if (hmax h <=? j) && (j <? hmax h + g) then set_nxt (if j <=? hmax h then it h j else node0) (j + 1)
     else if j <=? hmax h then it h j else node0) ->
  (forall s, live h' s <-> live h s) /\
  (forall s, live h s -> it h' s = it h s) /\
  forall q k t, holds kd h' q k t <-> holds kd h q k t.
Proof.
  intros I Hg E2 Hit.
  pose proof (i_siz _ _ _ _ I) as Hsiz.
  assert (Hold : forall j, 0 <= j < hmax h -> it h' j = it h j).
  { intros j Hj. rewrite Hit by lia. destruct (Z.leb_spec (hmax h) j); [lia|]. simpl.
    destruct (Z.leb_spec j (hmax h)); [reflexivity|lia]. }
  assert (Hnew : forall j, hmax h <= j <= hmax h + g -> na (it h' j) = 0).
  { intros j Hj. rewrite Hit by lia.
    destruct (_ && _); simpl; destruct (Z.leb_spec j (hmax h)); try reflexivity;
      replace j with (hmax h) by lia; apply (i_end _ _ _ _ I). }
  assert (HL : forall s, live h' s <-> live h s).
  { intros s. unfold live. rewrite E2. split; intros [Hs Hl].
    - destruct (Z_lt_le_dec s (hmax h)); [|rewrite Hnew in Hl by lia; congruence].
      rewrite Hold in Hl by lia. split; auto; lia.
    - rewrite Hold by lia. split; auto; lia. }
  split; [exact HL|]. split.
  - intros s [Hs _]. apply Hold. lia.
  - intros q k t. unfold holds. split; intros [s [L H]]; exists s.
    + apply HL in L. rewrite Hold in H by apply L. auto.
    + rewrite Hold by apply L. split; [apply HL; exact L | exact H].
Qed.

(** ** Appending to a chain *)

Lemma last_slot h B F key :
  InvBF kd h B F -> 0 <= key < hsiz h -> na (it h key) <> 0 ->
  live h (last (key :: B key) key).
Proof.
  intros I Hk Hl. pose proof (i_siz _ _ _ _ I).
  destruct (last_in _ (B key) key key) as [E|E].
  - rewrite <- E. split; [lia | exact Hl].
  - destruct (i_over _ _ _ _ I _ _ Hk E) as [? [? _]]. split; [lia | auto].
Qed.

Lemma append_grow_spec g h B F key fill ia ib q :
  InvBF kd h B F -> F <> [] -> 0 <= key < hsiz h -> na (it h key) <> 0 ->
  0 < ia -> hkey (hsiz h) ia ib = key ->
  (forall n, na (fill n) = ia /\ nb (fill n) = ib /\ kd (fill n) = q) ->
  absent kd h q ->
  exists ok h', append_grow g h (last (key :: B key) key) fill = Ret (ok, h') /\
    ((ok = false /\ g < 1 /\ alen (hitem h') = 0) \/
     (ok = true /\ Inv kd h' /\ exists n, forall q' k t, holds kd h' q' k t <->
        (q' = q /\ k = nk (fill n) /\ t = ntag (fill n)) \/ (q' <> q /\ holds kd h q' k t))).
Proof.
  intros I HF Hk Hl Hia Hkey Hfill Habs.
  destruct F as [|f F']; [congruence|]. clear HF.
  pose proof (last_slot h B (f :: F') key I Hk Hl) as [Hpb Hpl].
  set (p := last (key :: B key) key) in *.
  pose proof (i_siz _ _ _ _ I) as Hsiz. pose proof (i_len _ _ _ _ I) as Hlen.
  destruct (i_freein _ _ _ _ I f (or_introl eq_refl)) as [Hf Hf0].
  pose proof (i_free _ _ _ _ I) as Hfree. simpl in Hfree. destruct Hfree as [Hnx [Nnx _]].
  assert (Npf : p <> f) by (intros E; rewrite E in Hpl; congruence).
  unfold append_grow. rewrite rd_ok by lia. cbn [bind]. rewrite wr_ok by lia. cbn [bind].
  rewrite rd_ok by (cbn [alen]; lia). cbn [bind]. rewrite wr_ok by (cbn [alen]; lia). cbn [bind aget alen].
  rewrite Hnx.
  assert (Ef : upd (it h) p (set_nxt (it h p) f) f = it h f) by (apply upd_other; congruence).
  rewrite Ef.
  set (h2 := mkH (hsiz h) (hmax h) (nnxt (it h f)) _).
  destruct (Hfill (it h f)) as [Fa [Fb Fk]].
  assert (Hit2 : forall j, it h2 j = if j =? f then set_nxt (fill (it h f)) 0 else if j =? p then set_nxt (it h p) f else it h j).
  { intros j. unfold h2. cbn [hitem aget]. unfold upd. reflexivity. }
  assert (I2 : InvBF kd h2 (upd B key (B key ++ [f])) F').
  { eapply append_inv with (n' := set_nxt (fill (it h f)) 0) (p := p); eauto; try reflexivity; cbn [set_nxt na nb].
    - lia.
    - rewrite Fa, Fb. exact Hkey.
    - rewrite (kd_nxt _ KD), Fk. exact Habs. }
  assert (H2 : forall q' k t, holds kd h2 q' k t <->
        (q' = q /\ k = nk (fill (it h f)) /\ t = ntag (fill (it h f))) \/ (q' <> q /\ holds kd h q' k t)).
  { intros q' k t.
    rewrite (append_holds h f p (set_nxt (fill (it h f)) 0) h2); auto; try lia.
    - rewrite (kd_nxt _ KD), Fk. reflexivity.
    - simpl. lia.
    - rewrite (kd_nxt _ KD), Fk. exact Habs. }
  destruct (Z.ltb_spec (hnxt h2) (hmax h2)) as [Hlt|Hge]; cbn [negb].
  - exists true, h2. split; [reflexivity|]. right. split; [reflexivity|]. split; [|eauto].
    exists (upd B key (B key ++ [f])), F'. split; [exact I2|]. intros ->.
    pose proof (i_free _ _ _ _ I2) as Hx. simpl in Hx. unfold h2 in *. cbn [hnxt hmax] in *. lia.
  - unfold grow_items. destruct (Z.ltb_spec g 1) as [Hg|Hg].
    + exists false. eexists. split; [reflexivity|]. left. auto.
    + assert (HF' : F' = []).
      { destruct F' as [|y F']; [reflexivity|]. pose proof (i_free _ _ _ _ I2) as Hx. simpl in Hx.
        destruct (i_freein _ _ _ _ I2 y (or_introl eq_refl)) as [Hy _].
        destruct Hx as [Hx _]. unfold h2 in *. cbn [hnxt hmax hsiz] in *. lia. }
      subst F'. assert (Hx : hnxt h2 = hmax h2) by exact (i_free _ _ _ _ I2).
      cbn [hnxt hmax hitem].
      destruct (init_links_spec (hnxt h2) (hmax h2 + g) (arecalloc (hitem h2) (hmax h2 + g + 1) node0))
        as [it3 [E3 [Hl3 Hs3]]].
      * rewrite Hx. unfold h2. cbn [hmax]. lia.
      * cbn [arecalloc alen]. lia.
      * rewrite E3. cbn [bind].
        eexists. eexists. split; [reflexivity|]. right. split; [reflexivity|].
        set (h3 := set_item _ it3).
        assert (Hit3 : forall j, 0 <= j <= hmax h2 + g -> it h3 j =
           if (hmax h2 <=? j) && (j <? hmax h2 + g) then set_nxt (if j <=? hmax h2 then it h2 j else node0) (j + 1)
           else if j <=? hmax h2 then it h2 j else node0).
        { intros j Hj. unfold h3. cbn [set_item hitem]. rewrite Hs3. cbn [arecalloc aget].
          rewrite Hx. rewrite (i_len _ _ _ _ I2).
          replace (j <? hmax h2 + 1) with (j <=? hmax h2); [reflexivity|].
          destruct (Z.leb_spec j (hmax h2)), (Z.ltb_spec j (hmax h2 + 1)); reflexivity || lia. }
        assert (I3 : InvBF kd h3 (upd B key (B key ++ [f])) ([] ++ seqZ (hmax h2) (hmax h2 + g))).
        { eapply grow_inv; eauto; try reflexivity. }
        split.
        -- eexists. eexists. split; [exact I3|]. cbn [app].
           destruct (seqZ_last (hmax h2) (hmax h2 + g)) as [l El]; [lia|]. rewrite El. destruct l; discriminate.
        -- exists (it h f). intros q' k t. rewrite <- H2.
           eapply grow_holds; [exact I2 | | reflexivity | exact Hit3]. lia.
Qed.

End Ops.
