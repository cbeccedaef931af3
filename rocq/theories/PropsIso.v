(** C13: removal of the entities of a former isosurface. *)
From Coq Require Import ZArith List Bool Lia Permutation.
From Verif Require Import CBase ApiModel IsoModel.
Import ListNotations.
Open Scope Z_scope.

(** ** Segments *)

Lemma seg_ext a b n : (forall i, 1 <= i <= n -> aget a i = aget b i) -> seg a n = seg b n.
Proof.
  intros H. unfold seg. apply map_ext_in. intros i Hi. apply in_seq in Hi. apply H. lia.
Qed.
Lemma seg_last a n : 1 <= n -> seg a n = seg a (n - 1) ++ [aget a n].
Proof.
  intros Hn. unfold seg. replace (Z.to_nat n) with (Z.to_nat (n - 1) + 1)%nat by lia.
  rewrite seq_app, map_app. cbn [seq map]. do 3 f_equal. lia.
Qed.
Lemma seg_nil a : seg a 0 = [].
Proof. reflexivity. Qed.
Lemma seg_length a n : 0 <= n -> Z.of_nat (length (seg a n)) = n.
Proof. intros. unfold seg. rewrite map_length, seq_length. lia. Qed.
Lemma seg_In a n e : In e (seg a n) <-> exists i, 1 <= i <= n /\ aget a i = e.
Proof.
  unfold seg. rewrite in_map_iff. split.
  - intros (i & E & Hi). apply in_seq in Hi. exists (Z.of_nat i). split; [lia|exact E].
  - intros (i & Hi & E). exists (Z.to_nat i). rewrite in_seq, Z2Nat.id by lia. split; [exact E|lia].
Qed.

Definition setk (a : arr ent) (k : Z) (x : ent) : arr ent := mkArr (alen a) (upd (aget a) k x).

Lemma seg_upd a k n : 1 <= k <= n -> exists l1 l2, seg a n = l1 ++ aget a k :: l2 /\
  forall x, seg (setk a k x) n = l1 ++ x :: l2.
Proof.
  intros Hk.
  exists (seg a (k - 1)), (map (fun i => aget a (Z.of_nat i)) (seq (Z.to_nat k + 1) (Z.to_nat (n - k)))).
  assert (G : forall b, seg b n = seg b (k - 1) ++ aget b k :: map (fun i => aget b (Z.of_nat i)) (seq (Z.to_nat k + 1) (Z.to_nat (n - k)))).
  { intros b. unfold seg. replace (Z.to_nat n) with (Z.to_nat (k - 1) + (1 + Z.to_nat (n - k)))%nat by lia.
    rewrite !seq_app, !map_app. cbn [seq map].
    replace (Z.of_nat (1 + Z.to_nat (k - 1))) with k by lia.
    replace (1 + Z.to_nat (k - 1) + 1)%nat with (Z.to_nat k + 1)%nat by lia. reflexivity. }
  split; [apply G|]. intros x. rewrite G. f_equal; [|f_equal].
  - apply seg_ext. intros i Hi. cbn. apply upd_other. lia.
  - cbn. apply upd_same.
  - apply map_ext_in. intros i Hi. apply in_seq in Hi. cbn. apply upd_other. lia.
Qed.

(** ** [MMG3D_skipIso] *)

Lemma skip_seek_ok r a k : forall fuel n, 1 <= k <= n -> n < alen a -> (Z.to_nat (n - k) < fuel)%nat ->
  iso r (aget a k) = true ->
  exists j n', skip_seek fuel r a k n = Ret (j, n') /\ k <= j <= n /\
    (forall i, n' < i <= n -> iso r (aget a i) = true) /\
    ((n' = j /\ k < j /\ iso r (aget a j) = false) \/ (n' = k - 1 /\ j = k /\ iso r (aget a j) = true)).
Proof.
  induction fuel as [|f IH]; intros n Hk Hn Hf Hi; [lia|].
  cbn [skip_seek]. rewrite rd_ok by lia. cbn [bind].
  destruct (iso r (aget a n)) eqn:E.
  - destruct (Z.leb_spec k (n - 1)).
    + destruct (IH (n - 1)) as (j & n' & G & Hj & Ha & Hc); [lia|lia|lia|exact Hi|].
      exists j, n'. split; [exact G|]. split; [lia|]. split; [|exact Hc].
      intros i Hi'. destruct (Z.eq_dec i n); [congruence|]. apply Ha. lia.
    + assert (n = k) by lia. subst n. exists k, (k - 1). split; [reflexivity|]. split; [lia|]. split; [|auto].
      intros i Hi'. replace i with k by lia. exact E.
  - exists n, n. split; [reflexivity|]. split; [lia|]. split; [intros; lia|]. left. split; [reflexivity|]. split; [|exact E].
    destruct (Z.eq_dec n k); [congruence|lia].
Qed.

Lemma norm_norm e : norm (with_ref e (Z.abs (i_ref e))) = norm e.
Proof. unfold norm, with_ref. cbn. f_equal. lia. Qed.
Lemma iso_norm r e : iso r (norm e) = iso r e.
Proof. unfold iso, norm, with_ref. cbn. rewrite Z.abs_involutive. reflexivity. Qed.
Lemma iso_abs r e : iso r (with_ref e (Z.abs (i_ref e))) = iso r e.
Proof. exact (iso_norm r e). Qed.

(** State of the loop: [c] is the current last index; the entities after it are
    discarded; those before [k] are done. *)
Definition done (edge : bool) (x y : ent) : Prop := if edge then norm x = norm y else x = y.
Lemma done_refl edge x : done edge x x.
Proof. destruct edge; reflexivity. Qed.
Lemma done_norm x y : done true x y -> norm x = norm y.
Proof. auto. Qed.
Lemma done_trans edge x y z : done edge x y -> done edge y z -> done edge x z.
Proof. destruct edge; cbn; congruence. Qed.
Lemma done_iso edge r x y : done edge x y -> iso r x = iso r y.
Proof. destruct edge; cbn; intros H; [|congruence]. rewrite <- (iso_norm r x), <- (iso_norm r y), H. reflexivity. Qed.

Record skip_inv (edge : bool) (r : Z) (a0 : arr ent) (n : Z) (k : Z) (a : arr ent) (c : Z) : Prop := {
  s_len : alen a = alen a0;
  s_c : 0 <= c <= n;
  s_gone : forall i, c < i <= n -> iso r (aget a0 i) = true;
  s_keep : forall i, 1 <= i <= n -> iso r (aget a0 i) = false -> done edge (aget a i) (aget a0 i);
  s_todo : forall i, k <= i <= n -> done edge (aget a i) (aget a0 i);
  s_copy : forall i, 1 <= i < k -> i <= c -> iso r (aget a0 i) = true ->
           iso r (aget a0 c) = false /\ done edge (aget a i) (aget a0 c) }.

Lemma skip_one_ok fuel edge r a0 n k a c : 1 <= k <= c -> n < alen a0 -> (Z.to_nat (c - k) < fuel)%nat ->
  skip_inv edge r a0 n k a c ->
  exists a' c', skip_one fuel edge r k a c = Ret (a', c') /\ c' <= c /\
    (c' < c -> c' < k \/ iso r (aget a0 c') = false) /\
    (c' = c \/ iso r (aget a0 k) = true) /\ (c' < k -> c' = k - 1) /\
    skip_inv edge r a0 n (k + 1) a' c'.
Proof.
  intros Hk Hn Hf [I1 I2 I3 I4 I5 I6]. unfold skip_one. rewrite rd_ok by lia. cbn [bind].
  pose proof (done_iso _ r _ _ (I5 k ltac:(lia))) as Ek.
  destruct (iso r (aget a k)) eqn:E; cbn [negb].
  - destruct (@skip_seek_ok r a k fuel c) as (j & c' & G & Hj & Ha & Hc); [lia|lia|lia|exact E|].
    rewrite G. cbn [bind]. rewrite rd_ok by lia. cbn [bind].
    assert (Gone : forall i, c' < i <= n -> iso r (aget a0 i) = true).
    { intros i Hi. destruct (Z_le_gt_dec i c); [|apply I3; lia].
      rewrite <- (done_iso _ r _ _ (I5 i ltac:(lia))). apply Ha. lia. }
    destruct Hc as [(-> & Hkj & Ej)|(-> & -> & Ej)].
    + rewrite Ej. cbn [negb]. rewrite wr_ok by lia. cbn [bind].
      pose proof (done_iso _ r _ _ (I5 j ltac:(lia))) as Ej0. rewrite Ej in Ej0.
      assert (Dj : done edge (aget a j) (aget a0 j)) by (apply I5; lia).
      destruct edge.
      * rewrite rd_ok by (cbn; lia). cbn [bind]. rewrite wr_ok by (cbn; lia). cbn [bind].
        eexists _, _. split; [reflexivity|].
        split; [lia|]. split; [auto|]. split; [auto|]. split; [lia|].
        cbn [alen aget]. rewrite (upd_other (aget a)) by lia.
        constructor; cbn [alen aget]; auto; try lia.
        -- intros i Hi Ei. unfold upd. destruct (Z.eqb_spec i j) as [->|]; [cbn; rewrite norm_norm; exact Dj|].
           destruct (Z.eqb_spec i k) as [->|]; [congruence|]. apply I4; auto.
        -- intros i Hi. unfold upd. destruct (Z.eqb_spec i j) as [->|]; [cbn; rewrite norm_norm; exact Dj|].
           destruct (Z.eqb_spec i k) as [->|]; [lia|]. apply I5; lia.
        -- intros i Hi1 Hi2 Ei. split; [congruence|]. unfold upd.
           destruct (Z.eqb_spec i j) as [->|]; [lia|].
           destruct (Z.eqb_spec i k) as [->|]; [exact Dj|].
           destruct (I6 i ltac:(lia) ltac:(lia) Ei) as [Hc1 Hc2].
           assert (c = j).
           { destruct (Z.eq_dec c j); [assumption|].
             rewrite <- (done_iso _ r _ _ (I5 c ltac:(lia))) in Hc1. rewrite Ha in Hc1 by lia. discriminate. }
           subst c. exact Hc2.
      * eexists _, _. split; [reflexivity|].
        split; [lia|]. split; [auto|]. split; [auto|]. split; [lia|].
        constructor; cbn [alen aget]; auto; try lia.
        -- intros i Hi Ei. unfold upd. destruct (Z.eqb_spec i k) as [->|]; [congruence|]. apply I4; auto.
        -- intros i Hi. unfold upd. destruct (Z.eqb_spec i k) as [->|]; [lia|]. apply I5; lia.
        -- intros i Hi1 Hi2 Ei. split; [congruence|]. unfold upd.
           destruct (Z.eqb_spec i k) as [->|]; [exact Dj|].
           destruct (I6 i ltac:(lia) ltac:(lia) Ei) as [Hc1 Hc2].
           assert (c = j).
           { destruct (Z.eq_dec c j); [assumption|].
             rewrite <- (done_iso _ r _ _ (I5 c ltac:(lia))) in Hc1. rewrite Ha in Hc1 by lia. discriminate. }
           subst c. exact Hc2.
    + rewrite Ej. cbn [negb]. eexists _, _. split; [reflexivity|].
      split; [lia|]. split; [intros; left; lia|]. split; [auto|]. split; [auto|].
      constructor; auto; try lia.
      * intros i Hi. apply I5. lia.
      * intros i Hi1 Hi2 Ei. destruct (I6 i ltac:(lia) ltac:(lia) Ei) as [Hc1 Hc2].
        rewrite <- (done_iso _ r _ _ (I5 c ltac:(lia))) in Hc1. rewrite Ha in Hc1 by lia. discriminate.
  - destruct edge.
    + rewrite wr_ok by lia. cbn [bind]. eexists _, _. split; [reflexivity|].
      split; [lia|]. split; [intros; lia|]. split; [auto|]. split; [lia|].
      constructor; cbn [alen aget]; auto; try lia.
      * intros i Hi Ei. unfold upd. destruct (Z.eqb_spec i k) as [->|]; [|apply I4; auto].
        cbn. rewrite norm_norm. apply I5. lia.
      * intros i Hi. unfold upd. destruct (Z.eqb_spec i k) as [->|]; [lia|]. apply I5; lia.
      * intros i Hi1 Hi2 Ei. unfold upd. destruct (Z.eqb_spec i k) as [->|]; [congruence|]. apply I6; auto. lia.
    + eexists _, _. split; [reflexivity|].
      split; [lia|]. split; [intros; lia|]. split; [auto|]. split; [lia|].
      constructor; auto; try lia.
      * intros i Hi. apply I5; lia.
      * intros i Hi1 Hi2 Ei. apply I6; auto. destruct (Z.eq_dec i k) as [->|]; [congruence|lia].
Qed.

Lemma skip_loop_ok edge r a0 n : n < alen a0 -> forall fuel k a c,
  1 <= k <= c -> (Z.to_nat (c - k) < fuel)%nat -> skip_inv edge r a0 n k a c ->
  exists a' c', skip_loop fuel edge r k a c = Ret (a', c') /\
    skip_inv edge r a0 n (c' + 1) a' c'.
Proof.
  intros Hn. induction fuel as [|f IH]; intros k a c Hk Hf I; [lia|].
  cbn [skip_loop].
  destruct (@skip_one_ok (S f) edge r a0 n k a c Hk Hn Hf I) as (a' & c' & E & Hc & _ & _ & Hlt & I').
  rewrite E. cbn [bind].
  destruct (Z.leb_spec (k + 1) c').
  - apply (IH (k + 1) a' c'); auto; lia.
  - exists a', c'. split; [reflexivity|]. destruct I' as [J1 J2 J3 J4 J5 J6].
    constructor; auto; [|intros i Hi Hi2; apply J6; lia].
    intros i Hi. destruct (Z_le_gt_dec (k + 1) i); [apply J5; lia|].
    assert (c' = k - 1) by lia. assert (i = k) by lia. subst i.
    (* the entity [k] was not touched: read from the invariant before *)
    destruct I as [I1 I2 I3 I4 I5 I6].
    revert E. unfold skip_one. rewrite rd_ok by lia. cbn [bind].
    destruct (iso r (aget a k)) eqn:Ei; cbn [negb].
    + destruct (@skip_seek_ok r a k (S f) c) as (j & n' & G & Hj & Ha & Hcc); [lia|lia|lia|exact Ei|].
      rewrite G. cbn [bind]. rewrite rd_ok by lia. cbn [bind].
      destruct Hcc as [(-> & Hkj & Ej)|(-> & -> & Ej)].
      * rewrite Ej. cbn [negb]. rewrite wr_ok by lia. cbn [bind].
        destruct edge; [rewrite rd_ok by (cbn; lia); cbn [bind]; rewrite wr_ok by (cbn; lia); cbn [bind]|];
          intros K; injection K as _ K; lia.
      * rewrite Ej. cbn [negb]. intros K. injection K as <- _. apply I5. lia.
    + destruct edge; [rewrite wr_ok by lia; cbn [bind]|]; intros K; injection K as _ K; lia.
Qed.

(** Called when the reading cursor is at the end: every entity of another
    reference stays at its place (up to the sign of an edge reference), no
    entity with the isosurface reference is left.  Missing: the places of the
    discarded entities are filled with copies of the last kept one. *)
Theorem C13_skip_partial edge r a n : 1 <= n < alen a ->
  exists a' n', skip edge r a n n = Ret (a', n') /\ alen a' = alen a /\ 0 <= n' <= n /\
    (forall i, 1 <= i <= n -> iso r (aget a i) = false -> i <= n' /\ norm (aget a' i) = norm (aget a i)) /\
    (forall i, 1 <= i <= n' -> iso r (aget a i) = true -> norm (aget a' i) = norm (aget a n')) /\
    (forall i, 1 <= i <= n' -> iso r (aget a' i) = false) /\
    (edge = false -> forall i, 1 <= i <= n' -> iso r (aget a i) = false -> aget a' i = aget a i).
Proof.
  intros Hn. unfold skip. rewrite Z.max_id.
  assert (I0 : skip_inv edge r a n 1 a n).
  { constructor; auto; try lia; intros; apply done_refl. }
  destruct (@skip_loop_ok edge r a n ltac:(lia) (S (Z.to_nat n)) 1 a n) as (a' & c & E & [J1 J2 J3 J4 J5 J6]); [lia|lia|exact I0|].
  rewrite E. cbn [bind].
  exists a', c.
  assert (Ec : (if c <? n then c else n) = c) by (destruct (Z.ltb_spec c n); lia).
  rewrite Ec.
  assert (DN : forall x y, done edge x y -> norm x = norm y) by (intros x y; destruct edge; cbn; congruence).
  split; [reflexivity|]. split; [exact J1|]. split; [lia|]. split; [|split; [|split]].
  - intros i Hi Hf. split; [|apply DN; apply J4; auto].
    destruct (Z_le_gt_dec i c); [assumption|]. rewrite J3 in Hf by lia. discriminate.
  - intros i Hi Ht. apply DN. apply J6; auto; lia.
  - intros i Hi. destruct (iso r (aget a i)) eqn:Ei.
    + destruct (J6 i ltac:(lia) ltac:(lia) Ei) as [K1 K2]. rewrite (done_iso _ r _ _ K2). exact K1.
    + rewrite (done_iso _ r _ _ (J4 i ltac:(lia) Ei)). exact Ei.
  - intros -> i Hi Hf. apply (J4 i); auto. lia.
Qed.

(** Hence, when the entities to discard come last, the others are kept exactly. *)
Corollary C13_skip_trailing r a n p : 1 <= n < alen a -> 0 <= p <= n ->
  (forall i, 1 <= i <= n -> iso r (aget a i) = (p <? i)) ->
  exists a', skip false r a n n = Ret (a', p) /\ seg a' p = seg a p.
Proof.
  intros Hn Hp Hs. destruct (@C13_skip_partial false r a n Hn) as (a' & n' & E & _ & Hn' & K1 & K2 & K3 & K4).
  assert (Hle : p <= n').
  { destruct (Z.eq_dec p 0); [lia|]. apply (K1 p); [lia|]. rewrite Hs by lia. apply Z.ltb_ge. lia. }
  assert (n' = p).
  { destruct (Z_le_gt_dec n' p); [lia|]. exfalso.
    assert (T : iso r (aget a n') = true) by (rewrite Hs by lia; apply Z.ltb_lt; lia).
    pose proof (K2 n' ltac:(lia) T) as Q. specialize (K3 n' ltac:(lia)).
    rewrite <- (iso_norm r (aget a' n')), Q, iso_norm in K3. congruence. }
  subst n'. exists a'. split; [exact E|]. apply seg_ext. intros i Hi. apply K4; [reflexivity|lia|].
  rewrite Hs by lia. apply Z.ltb_ge. lia.
Qed.

(** Isosurface reference 10; the first of two triangles is discarded, the second
    is then present twice. *)
Definition tri (v ref : Z) : ent := mkI v (v + 1) ref 0 v.
Definition lst (l : list ent) : arr ent := mkArr (Z.of_nat (length l) + 1) (fun i => nth (Z.to_nat (i - 1)) l ent0).

Theorem C13_skip_duplicates_refuted : exists r a n a' n' t,
  seg a n = [tri 1 r; t] /\ iso r t = false /\
  skip false r a n n = Ret (a', n') /\ seg a' n' = [t; t].
Proof.
  exists 10, (lst [tri 1 10; tri 2 5]), 2. do 2 eexists. exists (tri 2 5).
  split; [reflexivity|]. split; [reflexivity|]. split; reflexivity.
Qed.

(** If one triangle was read before, the reading cursor is taken for the last
    index and the other triangles are lost. *)
Theorem C13_skip_cursor_refuted : exists r a n a' n',
  (forall e, In e (seg a n) -> iso r e = false) /\ n = 3 /\
  skip false r a n 1 = Ret (a', n') /\ seg a' n' = [aget a 1].
Proof.
  exists 10, (lst [tri 1 4; tri 2 5; tri 3 6]), 3. do 2 eexists.
  split; [|split; [reflexivity|split; reflexivity]].
  intros e [<-|[<-|[<-|[]]]]; reflexivity.
Qed.

(** ** [MMG3D_Clean_isoSurf] *)

Section Clean.
Context (drop : ent -> bool).
Definition kept (a : arr ent) (n : Z) : list ent := map norm (filter (fun e => negb (drop e)) (seg a n)).

Lemma kept_last a n : 1 <= n -> drop (aget a n) = true -> kept a n = kept a (n - 1).
Proof.
  intros Hn H. unfold kept. rewrite (seg_last a n Hn), filter_app. cbn [filter]. rewrite H. cbn [negb].
  rewrite app_nil_r. reflexivity.
Qed.
Lemma kept_move a k j : 1 <= k < j -> drop (aget a k) = true ->
  Permutation (kept (setk a k (aget a j)) (j - 1)) (kept a j).
Proof.
  intros Hk H. unfold kept. apply Permutation_map.
  rewrite (seg_last a j) by lia.
  destruct (@seg_upd a k (j - 1) ltac:(lia)) as (l1 & l2 & E1 & E2).
  rewrite E1, E2. rewrite !filter_app. cbn [filter]. rewrite H. cbn [negb].
  destruct (drop (aget a j)); cbn [negb].
  - rewrite app_nil_r. reflexivity.
  - rewrite <- app_assoc. apply Permutation_app_head. apply Permutation_cons_append.
Qed.
Lemma kept_abs a k n : 1 <= k <= n ->
  (forall e r, Z.abs r = Z.abs (i_ref e) -> drop (with_ref e r) = drop e) ->
  kept (setk a k (with_ref (aget a k) (- i_ref (aget a k)))) n = kept a n.
Proof.
  intros Hk H. unfold kept.
  destruct (@seg_upd a k n Hk) as (l1 & l2 & E1 & E2). rewrite E1, E2.
  rewrite !filter_app. cbn [filter]. rewrite H by lia. destruct (negb _); [|reflexivity].
  rewrite !map_app. cbn [map]. do 2 f_equal. unfold norm, with_ref. cbn. f_equal. lia.
Qed.
End Clean.

(** A triangle to discard: hole or isosurface reference. *)
Definition tdrop (r : Z) (e : ent) : bool := negb (tok e) || iso r e.

Lemma tdrop_ref r e x : Z.abs x = Z.abs (i_ref e) -> tdrop r (with_ref e x) = tdrop r e.
Proof. intros H. unfold tdrop, tok, iso. cbn. rewrite H. reflexivity. Qed.

Lemma clean_seek_ok r a k : forall fuel n, 1 <= k <= n -> n < alen a -> (Z.to_nat (n - k) < fuel)%nat ->
  exists j, clean_seek fuel r a k n = Ret j /\ k <= j <= n /\
    (forall i, j < i <= n -> tdrop r (aget a i) = true) /\ (k < j -> tdrop r (aget a j) = false).
Proof.
  induction fuel as [|f IH]; intros n Hk Hn Hf; [lia|].
  cbn [clean_seek]. rewrite rd_ok by lia. cbn [bind]. fold (tdrop r (aget a n)).
  destruct (tdrop r (aget a n)) eqn:E; cbn [andb].
  - destruct (Z.ltb_spec k n).
    + destruct (IH (n - 1)) as (j & G & Hj & Ha & Hc); [lia|lia|lia|].
      exists j. split; [exact G|]. split; [lia|]. split; [|exact Hc].
      intros i Hi. destruct (Z.eq_dec i n); [congruence|]. apply Ha. lia.
    + exists n. split; [reflexivity|]. split; [lia|]. split; intros; lia.
  - exists n. split; [reflexivity|]. split; [lia|]. split; [intros; lia|]. intros _. exact E.
Qed.

Lemma kept_trim r a j n : 0 <= j <= n -> (forall i, j < i <= n -> tdrop r (aget a i) = true) ->
  kept (tdrop r) a n = kept (tdrop r) a j.
Proof.
  intros Hj H. replace n with (j + Z.of_nat (Z.to_nat (n - j))) in H |- * by lia.
  revert H. induction (Z.to_nat (n - j)) as [|p IH]; intros H.
  - f_equal. lia.
  - rewrite kept_last; [|lia|apply H; lia]. rewrite <- IH; [f_equal; lia|]. intros i Hi. apply H. lia.
Qed.


(** Every live triangle of another reference is kept once, up to the sign of its
    reference; the others are gone; without holes before there is none after. *)
Lemma clean_one_ok fuel r k a n : 1 <= k <= n -> n < alen a -> (Z.to_nat (n - k) < fuel)%nat ->
  exists a' n', clean_one fuel r k a n = Ret (a', n') /\ alen a' = alen a /\ k <= n' <= n /\
    Permutation (kept (tdrop r) a' n') (kept (tdrop r) a n) /\
    (forall i, 1 <= i < k -> aget a' i = aget a i) /\
    (n' = k \/ tok (aget a' k) = false \/ iso r (aget a' k) = false) /\
    ((forall i, 1 <= i <= n -> tok (aget a i) = true) -> forall i, 1 <= i <= n' -> tok (aget a' i) = true).
Proof.
  intros Hk Hn Hf. unfold clean_one. rewrite rd_ok by lia. cbn [bind].
  destruct (tok (aget a k)) eqn:Et; cbn [negb].
  2:{ exists a, n. split; [reflexivity|]. split; [reflexivity|]. split; [lia|]. auto 6. }
  assert (Abs : forall a1 n1, alen a1 = alen a -> k <= n1 <= n ->
     Permutation (kept (tdrop r) a1 n1) (kept (tdrop r) a n) ->
     (forall i, 1 <= i < k -> aget a1 i = aget a i) ->
     (n1 = k \/ tok (aget a1 k) = false \/ iso r (aget a1 k) = false) ->
     ((forall i, 1 <= i <= n -> tok (aget a i) = true) -> forall i, 1 <= i <= n1 -> tok (aget a1 i) = true) ->
     exists a' n', (p1 <- rd a1 k ;;
       if i_ref p1 <? 0 then a2 <- wr a1 k (with_ref p1 (- i_ref p1)) ;; Ret (a2, n1) else Ret (a1, n1)) = Ret (a', n') /\
       alen a' = alen a /\ k <= n' <= n /\ Permutation (kept (tdrop r) a' n') (kept (tdrop r) a n) /\
       (forall i, 1 <= i < k -> aget a' i = aget a i) /\
       (n' = k \/ tok (aget a' k) = false \/ iso r (aget a' k) = false) /\
       ((forall i, 1 <= i <= n -> tok (aget a i) = true) -> forall i, 1 <= i <= n' -> tok (aget a' i) = true)).
  { intros a1 n1 L1 B1 P1 F1 E1 T1. rewrite rd_ok by lia. cbn [bind].
    destruct (i_ref (aget a1 k) <? 0); [|exists a1, n1; auto 9].
    rewrite wr_ok by lia. cbn [bind]. fold (setk a1 k (with_ref (aget a1 k) (- i_ref (aget a1 k)))).
    eexists _, _. split; [reflexivity|]. split; [exact L1|]. split; [lia|]. split; [|split; [|split]].
    - rewrite kept_abs; [exact P1|lia|intros e x; apply tdrop_ref].
    - intros i Hi. cbn. rewrite upd_other by lia. apply F1; lia.
    - cbn. rewrite upd_same. unfold iso, tok in *. cbn. rewrite Z.abs_opp. exact E1.
    - intros Ha i Hi. cbn. unfold upd. destruct (Z.eqb_spec i k) as [->|]; [|apply T1; auto].
      exact (T1 Ha k ltac:(lia)). }
  destruct (iso r (aget a k)) eqn:Ei.
  - destruct (@clean_seek_ok r a k fuel n) as (j & G & Hj & Ha & Hc); [lia|lia|lia|].
    rewrite G. cbn [bind]. rewrite rd_ok by lia. cbn [bind].
    assert (Dk : tdrop r (aget a k) = true) by (unfold tdrop; rewrite Ei; apply orb_true_r).
    destruct (Z.eqb_spec k j) as [->|]; cbn [negb bind].
    + apply Abs; [reflexivity|lia| |auto|auto|].
      * rewrite (@kept_trim r a j n) by (auto; lia). reflexivity.
      * intros H i Hi. apply H. lia.
    + rewrite wr_ok by lia. cbn [bind]. fold (setk a k (aget a j)).
      specialize (Hc ltac:(lia)).
      apply orb_false_elim in Hc. destruct Hc as [Hc1 Hc2].
      apply Abs; [reflexivity|lia| | | |].
      * rewrite kept_move by (auto; lia). rewrite (@kept_trim r a j n) by (auto; lia). reflexivity.
      * intros i Hi. cbn. apply upd_other. lia.
      * right; right. cbn. rewrite upd_same. exact Hc2.
      * intros H i Hi. cbn. unfold upd. destruct (Z.eqb_spec i k); apply H; lia.
  - cbn [bind]. apply Abs; auto; lia.
Qed.

Lemma clean_loop_ok r : forall fuel k a n, 1 <= k <= n -> n < alen a -> (Z.to_nat (n - k) < fuel)%nat ->
  (forall i, 1 <= i < k -> tdrop r (aget a i) = true -> tok (aget a i) = false) ->
  exists k' a' n', clean_loop fuel r k a n = Ret (k', a', n') /\ alen a' = alen a /\ 1 <= n' <= n /\
    (k' = n' \/ k' = n' + 1) /\
    Permutation (kept (tdrop r) a' n') (kept (tdrop r) a n) /\
    (forall i, 1 <= i < n' -> tdrop r (aget a' i) = true -> tok (aget a' i) = false) /\
    ((forall i, 1 <= i <= n -> tok (aget a i) = true) -> forall i, 1 <= i <= n' -> tok (aget a' i) = true).
Proof.
  induction fuel as [|f IH]; intros k a n Hk Hn Hf Hd; [lia|].
  cbn [clean_loop].
  destruct (@clean_one_ok (S f) r k a n Hk Hn Hf) as (a1 & n1 & E & L1 & B1 & P1 & F1 & K1 & T1).
  rewrite E. cbn [bind].
  assert (Hd1 : forall i, 1 <= i < k -> tdrop r (aget a1 i) = true -> tok (aget a1 i) = false).
  { intros i Hi. rewrite F1 by lia. apply Hd. lia. }
  assert (Hd2 : n1 <> k -> tdrop r (aget a1 k) = true -> tok (aget a1 k) = false).
  { intros Hne Ht. destruct K1 as [|[|K1]]; [lia|assumption|].
    unfold tdrop in Ht. rewrite K1, orb_false_r in Ht. destruct (tok (aget a1 k)); [discriminate|reflexivity]. }
  destruct (Z.ltb_spec (k + 1) n1).
  - destruct (IH (k + 1) a1 n1) as (k' & a' & n' & E' & L' & B' & C' & P' & D' & T'); [lia|lia|lia| |].
    { intros i Hi. destruct (Z.eq_dec i k) as [->|]; [apply Hd2; lia|apply Hd1; lia]. }
    exists k', a', n'. split; [exact E'|]. split; [congruence|]. split; [lia|]. split; [exact C'|].
    split; [rewrite P'; exact P1|]. split; [exact D'|auto].
  - exists (k + 1), a1, n1. split; [reflexivity|]. split; [exact L1|]. split; [lia|]. split; [lia|].
    split; [exact P1|]. split; [|exact T1].
    intros i Hi. destruct (Z.eq_dec i k) as [->|]; [apply Hd2; lia|apply Hd1; lia].
Qed.

Lemma filter_ext_seg (f g : ent -> bool) a n : (forall i, 1 <= i <= n -> f (aget a i) = g (aget a i)) ->
  filter f (seg a n) = filter g (seg a n).
Proof.
  intros H. apply filter_ext_in. intros e He. apply seg_In in He. destruct He as (i & Hi & <-). auto.
Qed.

Theorem C13_clean_triangles r a n : 1 <= n < alen a ->
  exists a' n', Clean_isoTria r a n = Ret (a', n') /\ alen a' = alen a /\ 0 <= n' <= n /\
    Permutation (map norm (filter tok (seg a' n')))
                (map norm (filter (fun e => tok e && negb (iso r e)) (seg a n))) /\
    (Forall (fun e => tok e = true) (seg a n) -> Forall (fun e => tok e = true) (seg a' n')).
Proof.
  intros Hn. unfold Clean_isoTria.
  destruct (@clean_loop_ok r (S (Z.to_nat n)) 1 a n) as (k & a' & n1 & E & L & B & C & P & D & T); [lia|lia|lia|intros; lia|].
  rewrite E. cbn [bind].
  assert (Ca : ((k =? n1) || (k =? n1 + 1)) = true) by (destruct C as [->| ->]; rewrite Z.eqb_refl; auto using orb_true_r).
  rewrite Ca. cbn [c_assert bind]. rewrite rd_ok by lia. cbn [bind].
  fold (tdrop r (aget a' n1)).
  set (n' := if tdrop r (aget a' n1) then n1 - 1 else n1).
  assert (Hn' : 0 <= n' <= n1) by (unfold n'; destruct (tdrop r (aget a' n1)); lia).
  assert (Dn : forall i, 1 <= i <= n' -> tdrop r (aget a' i) = true -> tok (aget a' i) = false).
  { intros i Hi Ht. unfold n' in Hi. destruct (tdrop r (aget a' n1)) eqn:En; [apply D; auto; lia|].
    destruct (Z.eq_dec i n1) as [->|]; [congruence|apply D; auto; lia]. }
  exists a', n'. split; [reflexivity|]. split; [exact L|]. split; [lia|]. split.
  - rewrite (@filter_ext_seg tok (fun e => negb (tdrop r e)) a' n').
    + fold (kept (tdrop r) a' n').
      replace (kept (tdrop r) a' n') with (kept (tdrop r) a' n1).
      * rewrite P. unfold kept. erewrite filter_ext; [reflexivity|]. intros e. unfold tdrop.
        destruct (tok e), (iso r e); reflexivity.
      * unfold n'. destruct (tdrop r (aget a' n1)) eqn:En; [|reflexivity]. apply kept_last; [lia|exact En].
    + intros i Hi. specialize (Dn i Hi). unfold tdrop in *.
      destruct (tok (aget a' i)), (iso r (aget a' i)); cbn in *; auto; specialize (Dn eq_refl); discriminate.
  - intros Ha. apply Forall_forall. intros e He. apply seg_In in He. destruct He as (i & Hi & <-).
    apply T; [|lia]. intros q Hq. rewrite Forall_forall in Ha. apply Ha. apply seg_In. eauto.
Qed.

(** Three isosurface triangles, one of them last, one hole. *)
Example C13_clean_triangles_case :
  exists a', Clean_isoTria 10 (lst [tri 1 10; tri 2 5; tri 0 0; tri 4 (-10); tri 5 7; tri 6 (-8); tri 7 10]) 7 = Ret (a', 4) /\
    seg a' 4 = [tri 6 8; tri 2 5; tri 0 0; tri 5 7].
Proof. eexists. split; reflexivity. Qed.

(** ** [MMG5_Clean_isoEdges] *)

Lemma clear_if_ok b t v : 0 <= v < alen t -> exists t', clear_if b t v = Ret t' /\ alen t' = alen t /\
  (forall w, w <> v -> aget t' w = aget t w).
Proof.
  intros Hv. unfold clear_if. rewrite rd_ok by lia. cbn [bind].
  destruct (has (aget t v) b).
  - rewrite wr_ok by lia. eexists. split; [reflexivity|]. split; [reflexivity|].
    intros w Hw. cbn. apply upd_other. lia.
  - eexists. split; [reflexivity|]. auto.
Qed.

Lemma Clean_isoTags_ok t e : 0 <= i_a e < alen t -> 0 <= i_b e < alen t ->
  exists t', Clean_isoTags t e = Ret t' /\ alen t' = alen t /\
  (forall w, w <> i_a e -> w <> i_b e -> aget t' w = aget t w).
Proof.
  intros Ha Hb. unfold Clean_isoTags.
  destruct (@clear_if_ok MG_REQ t (i_a e) Ha) as (t1 & E1 & L1 & F1). rewrite E1. cbn [bind].
  destruct (@clear_if_ok MG_REQ t1 (i_b e) ltac:(lia)) as (t2 & E2 & L2 & F2). rewrite E2. cbn [bind].
  destruct (@clear_if_ok MG_CRN t2 (i_a e) ltac:(lia)) as (t3 & E3 & L3 & F3). rewrite E3. cbn [bind].
  destruct (@clear_if_ok MG_CRN t3 (i_b e) ltac:(lia)) as (t4 & E4 & L4 & F4).
  exists t4. split; [exact E4|]. split; [congruence|]. intros w Wa Wb.
  rewrite F4, F3, F2, F1 by assumption. reflexivity.
Qed.

Lemma to_remove_ref r e x : Z.abs x = Z.abs (i_ref e) -> to_remove r (with_ref e x) = to_remove r e.
Proof. intros H. unfold to_remove, iso, ridge_edge. cbn. rewrite H. reflexivity. Qed.

(** The vertices of the edges exist; [hit]: a vertex of an isosurface edge. *)
Definition ends_ok (t : arr Z) (e : ent) : Prop := i_a e = 0 \/ (0 <= i_a e < alen t /\ 0 <= i_b e < alen t).
Definition hit (r : Z) (a : arr ent) (n : Z) (v : Z) : Prop :=
  exists e, In e (seg a n) /\ i_a e <> 0 /\ iso r e = true /\ (v = i_a e \/ v = i_b e).

Lemma kept_trim' r a j n : 0 <= j <= n -> (forall i, j < i <= n -> to_remove r (aget a i) = true) ->
  kept (to_remove r) a n = kept (to_remove r) a j.
Proof.
  intros Hj H. replace n with (j + Z.of_nat (Z.to_nat (n - j))) in H |- * by lia.
  revert H. induction (Z.to_nat (n - j)) as [|p IH]; intros H.
  - f_equal. lia.
  - rewrite kept_last; [|lia|apply H; lia]. rewrite <- IH; [f_equal; lia|]. intros i Hi. apply H. lia.
Qed.

Lemma edge_seek_ok r a k N : forall fuel t n, 1 <= k <= n -> n <= N -> N < alen a -> (Z.to_nat (n - k) < fuel)%nat ->
  (forall i, 1 <= i <= N -> ends_ok t (aget a i)) ->
  exists t' j, edge_seek fuel r a t k n = Ret (t', j) /\ k <= j <= n /\ alen t' = alen t /\
    (forall v, ~ hit r a N v -> aget t' v = aget t v) /\
    (forall i, j < i <= n -> to_remove r (aget a i) = true) /\ (k < j -> to_remove r (aget a j) = false).
Proof.
  induction fuel as [|f IH]; intros t n Hk Hn HN Hf Ht; [lia|].
  cbn [edge_seek]. rewrite rd_ok by lia. cbn [bind].
  destruct (to_remove r (aget a n)) eqn:E; cbn [andb].
  - destruct (Z.ltb_spec k n).
    + assert (T1 : exists t1, (if i_a (aget a n) =? 0 then Ret t else Clean_isoTags t (aget a n)) = Ret t1 /\
         alen t1 = alen t /\ (forall v, ~ hit r a N v -> aget t1 v = aget t v)).
      { unfold to_remove in E. destruct (Z.eqb_spec (i_a (aget a n)) 0); [exists t; auto|].
        destruct (Ht n ltac:(lia)) as [|[Ba Bb]]; [lia|].
        destruct (@Clean_isoTags_ok t (aget a n) Ba Bb) as (t1 & E1 & L1 & F1).
        exists t1. split; [exact E1|]. split; [exact L1|]. intros v Hv.
        apply andb_true_iff in E. destruct E as [E _].
        assert (Hin : In (aget a n) (seg a N)) by (apply seg_In; exists n; split; [lia|reflexivity]).
        apply F1; intros ->; apply Hv; exists (aget a n); auto. }
      destruct T1 as (t1 & E1 & L1 & F1). rewrite E1. cbn [bind].
      destruct (IH t1 (n - 1)) as (t' & j & G & Hj & L' & F' & Ha & Hc); [lia|lia|lia|lia| |].
      { intros i Hi. unfold ends_ok. rewrite L1. apply Ht. lia. }
      exists t', j. split; [exact G|]. split; [lia|]. split; [congruence|]. split; [intros; rewrite F', F1 by assumption; reflexivity|].
      split; [|exact Hc]. intros i Hi. destruct (Z.eq_dec i n); [congruence|]. apply Ha. lia.
    + exists t, n. split; [reflexivity|]. split; [lia|]. split; [reflexivity|]. split; [reflexivity|]. split; intros; lia.
  - exists t, n. split; [reflexivity|]. split; [lia|]. split; [reflexivity|]. split; [reflexivity|]. split; [intros; lia|]. intros _. exact E.
Qed.

(** Every entity of the second segment comes from the first. *)
Definition from (a : arr ent) (n : Z) (a' : arr ent) (n' : Z) : Prop :=
  forall i, 1 <= i <= n' -> exists q, 1 <= q <= n /\ norm (aget a' i) = norm (aget a q).

Lemma norm_fields x y : norm x = norm y ->
  i_a x = i_a y /\ i_b x = i_b y /\ Z.abs (i_ref x) = Z.abs (i_ref y) /\ i_tag x = i_tag y.
Proof. destruct x, y. unfold norm, with_ref. cbn. intros H. injection H as -> -> H -> ->. auto. Qed.

Lemma from_hit r a n a' n' v : from a n a' n' -> hit r a' n' v -> hit r a n v.
Proof.
  intros F (e & He & Hz & Hi & Hv). apply seg_In in He. destruct He as (i & Hi1 & <-).
  destruct (F i Hi1) as (q & Hq & Eq). apply norm_fields in Eq. destruct Eq as (E1 & E2 & E3 & _).
  exists (aget a q). split; [apply seg_In; eauto|]. unfold iso in *. rewrite <- E1, <- E2, <- E3. auto.
Qed.

Lemma edge_one_ok fuel r k a t n : 1 <= k <= n -> n < alen a -> (Z.to_nat (n - k) < fuel)%nat ->
  (forall i, 1 <= i <= n -> ends_ok t (aget a i)) ->
  exists a' t' n', edge_one fuel r k a t n = Ret (a', t', n') /\ alen a' = alen a /\ alen t' = alen t /\ k <= n' <= n /\
    Permutation (kept (to_remove r) a' n') (kept (to_remove r) a n) /\
    (forall i, 1 <= i < k -> aget a' i = aget a i) /\
    (n' = k \/ i_a (aget a' k) = 0 \/ to_remove r (aget a' k) = false) /\
    from a n a' n' /\ (forall v, ~ hit r a n v -> aget t' v = aget t v).
Proof.
  intros Hk Hn Hf Ht. unfold edge_one. rewrite rd_ok by lia. cbn [bind].
  assert (From0 : forall m, m <= n -> from a n a m) by (intros m Hm i Hi; exists i; split; [lia|reflexivity]).
  destruct (Z.eqb_spec (i_a (aget a k)) 0) as [Ez|Ez].
  { exists a, t, n. split; [reflexivity|]. split; [reflexivity|]. split; [reflexivity|]. split; [lia|].
    split; [reflexivity|]. split; [reflexivity|]. split; [auto|]. split; [apply From0; lia|reflexivity]. }
  assert (Abs : forall a1 t1 n1, alen a1 = alen a -> alen t1 = alen t -> k <= n1 <= n ->
     Permutation (kept (to_remove r) a1 n1) (kept (to_remove r) a n) ->
     (forall i, 1 <= i < k -> aget a1 i = aget a i) ->
     (n1 = k \/ i_a (aget a1 k) = 0 \/ to_remove r (aget a1 k) = false) ->
     from a n a1 n1 -> (forall v, ~ hit r a n v -> aget t1 v = aget t v) ->
     exists a' t' n', (p1 <- rd a1 k ;;
       if i_ref p1 <? 0 then a2 <- wr a1 k (with_ref p1 (- i_ref p1)) ;; Ret (a2, t1, n1) else Ret (a1, t1, n1)) = Ret (a', t', n') /\
       alen a' = alen a /\ alen t' = alen t /\ k <= n' <= n /\ Permutation (kept (to_remove r) a' n') (kept (to_remove r) a n) /\
       (forall i, 1 <= i < k -> aget a' i = aget a i) /\
       (n' = k \/ i_a (aget a' k) = 0 \/ to_remove r (aget a' k) = false) /\
       from a n a' n' /\ (forall v, ~ hit r a n v -> aget t' v = aget t v)).
  { intros a1 t1 n1 L1 LT B1 P1 F1 E1 Fr T1. rewrite rd_ok by lia. cbn [bind].
    destruct (i_ref (aget a1 k) <? 0); [|exists a1, t1, n1; auto 12].
    rewrite wr_ok by lia. cbn [bind]. fold (setk a1 k (with_ref (aget a1 k) (- i_ref (aget a1 k)))).
    eexists _, _, _. split; [reflexivity|]. split; [exact L1|]. split; [exact LT|]. split; [lia|].
    split; [|split; [|split; [|split]]].
    - rewrite kept_abs; [exact P1|lia|intros e x; apply to_remove_ref].
    - intros i Hi. cbn. rewrite upd_other by lia. apply F1; lia.
    - cbn. rewrite upd_same. rewrite to_remove_ref by lia. exact E1.
    - intros i Hi. cbn. unfold upd. destruct (Z.eqb_spec i k) as [->|]; [|apply Fr; auto].
      destruct (Fr k Hi) as (q & Hq & Eq). exists q. split; [exact Hq|]. rewrite <- Eq.
      unfold norm, with_ref. cbn. f_equal. lia.
    - exact T1. }
  destruct (iso r (aget a k)) eqn:Ei.
  - destruct (Ht k ltac:(lia)) as [|[Ba Bb]]; [lia|].
    destruct (@Clean_isoTags_ok t (aget a k) Ba Bb) as (t1 & E1 & L1 & F1). rewrite E1. cbn [bind].
    assert (T1 : forall v, ~ hit r a n v -> aget t1 v = aget t v).
    { intros v Hv. assert (Hin : In (aget a k) (seg a n)) by (apply seg_In; exists k; split; [lia|reflexivity]).
      apply F1; intros ->; apply Hv; exists (aget a k); auto. }
    destruct (ridge_edge (aget a k)) eqn:Er; cbn [negb].
    + cbn [bind]. apply Abs; auto; [lia| |apply From0; lia].
      right; right. unfold to_remove. destruct (Z.eqb_spec (i_a (aget a k)) 0); [lia|]. rewrite Er. apply andb_false_r.
    + destruct (@edge_seek_ok r a k n fuel t1 n) as (t2 & j & G & Hj & L2 & F2 & Ha & Hc); [lia|lia|lia|lia| |].
      { intros i Hi. unfold ends_ok. rewrite L1. apply Ht. lia. }
      rewrite G. cbn [bind]. rewrite rd_ok by lia. cbn [bind].
      assert (T2 : forall v, ~ hit r a n v -> aget t2 v = aget t v) by (intros v Hv; rewrite F2, T1 by assumption; reflexivity).
      assert (Dk : to_remove r (aget a k) = true).
      { unfold to_remove. destruct (Z.eqb_spec (i_a (aget a k)) 0); [lia|]. rewrite Er, Ei. reflexivity. }
      destruct (Z.eqb_spec k j) as [->|]; cbn [negb bind].
      * apply Abs; [reflexivity|congruence|lia| |auto|auto|apply From0; lia|exact T2].
        rewrite (@kept_trim' r a j n) by (auto; lia). reflexivity.
      * rewrite wr_ok by lia. cbn [bind]. fold (setk a k (aget a j)).
        apply Abs; [reflexivity|congruence|lia| | | | |exact T2].
        -- rewrite kept_move by (auto; lia). rewrite (@kept_trim' r a j n) by (auto; lia). reflexivity.
        -- intros i Hi. cbn. apply upd_other. lia.
        -- right; right. cbn. rewrite upd_same. apply Hc. lia.
        -- intros i Hi. cbn. unfold upd. destruct (Z.eqb_spec i k); [exists j|exists i]; split; auto; lia.
  - cbn [bind]. apply Abs; auto; [lia| |apply From0; lia].
    right; right. unfold to_remove. destruct (Z.eqb_spec (i_a (aget a k)) 0); [lia|]. rewrite Ei. reflexivity.
Qed.

Lemma from_trans a n b m c p : from a n b m -> from b m c p -> from a n c p.
Proof.
  intros F G i Hi. destruct (G i Hi) as (q & Hq & E). destruct (F q Hq) as (x & Hx & E').
  exists x. split; [exact Hx|congruence].
Qed.

Lemma edge_loop_ok r : forall fuel k a t n, 1 <= k <= n -> n < alen a -> (Z.to_nat (n - k) < fuel)%nat ->
  (forall i, 1 <= i <= n -> ends_ok t (aget a i)) ->
  (forall i, 1 <= i < k -> to_remove r (aget a i) = true -> i_a (aget a i) = 0) ->
  exists k' a' t' n', edge_loop fuel r k a t n = Ret (k', a', t', n') /\ alen a' = alen a /\ alen t' = alen t /\ 1 <= n' <= n /\
    (k' = n' \/ k' = n' + 1) /\
    Permutation (kept (to_remove r) a' n') (kept (to_remove r) a n) /\
    (forall i, 1 <= i < n' -> to_remove r (aget a' i) = true -> i_a (aget a' i) = 0) /\
    from a n a' n' /\ (forall v, ~ hit r a n v -> aget t' v = aget t v).
Proof.
  induction fuel as [|f IH]; intros k a t n Hk Hn Hf Ht Hd; [lia|].
  cbn [edge_loop].
  destruct (@edge_one_ok (S f) r k a t n Hk Hn Hf Ht) as (a1 & t1 & n1 & E & L1 & LT & B1 & P1 & F1 & K1 & R1 & T1).
  rewrite E. cbn [bind].
  assert (Hd1 : forall i, 1 <= i < k -> to_remove r (aget a1 i) = true -> i_a (aget a1 i) = 0).
  { intros i Hi. rewrite F1 by lia. apply Hd. lia. }
  assert (Hd2 : n1 <> k -> to_remove r (aget a1 k) = true -> i_a (aget a1 k) = 0).
  { intros Hne Htr. destruct K1 as [|[|K1]]; [lia|assumption|congruence]. }
  destruct (Z.ltb_spec (k + 1) n1).
  - destruct (IH (k + 1) a1 t1 n1) as (k' & a' & t' & n' & E' & L' & LT' & B' & C' & P' & D' & R' & T'); [lia|lia|lia| | |].
    { intros i Hi. destruct (R1 i Hi) as (q & Hq & Eq). apply norm_fields in Eq. destruct Eq as (Q1 & Q2 & _).
      unfold ends_ok. rewrite Q1, Q2, LT. apply Ht. exact Hq. }
    { intros i Hi. destruct (Z.eq_dec i k) as [->|]; [apply Hd2; lia|apply Hd1; lia]. }
    exists k', a', t', n'. split; [exact E'|]. split; [congruence|]. split; [congruence|]. split; [lia|]. split; [exact C'|].
    split; [rewrite P'; exact P1|]. split; [exact D'|]. split; [eapply from_trans; eassumption|].
    intros v Hv. rewrite T', T1; auto. intros Hh. apply Hv. eapply from_hit; eassumption.
  - exists (k + 1), a1, t1, n1. split; [reflexivity|]. split; [exact L1|]. split; [exact LT|]. split; [lia|]. split; [lia|].
    split; [exact P1|]. split; [|auto].
    intros i Hi. destruct (Z.eq_dec i k) as [->|]; [apply Hd2; lia|apply Hd1; lia].
Qed.

(** A live edge; the edges to keep. *)
Definition live (e : ent) : bool := negb (i_a e =? 0).
Definition wanted (r : Z) (e : ent) : bool := live e && (negb (iso r e) || ridge_edge e).

Lemma wanted_drop r e : wanted r e = negb (to_remove r e).
Proof. unfold wanted, live, to_remove. destruct (i_a e =? 0), (iso r e), (ridge_edge e); reflexivity. Qed.

(** When no edge starts at the vertex whose number is the isosurface reference,
    every edge to keep is kept once and at most one edge to discard is left; the
    marks of the vertices outside the isosurface edges are unchanged.
    Missing: that no edge to discard is left, see below. *)
Theorem C13_clean_edges_partial r a t n : 1 <= n < alen a ->
  (forall e, In e (seg a n) -> ends_ok t e) ->
  (forall e, In e (seg a n) -> i_a e <> 0 -> Z.abs (i_a e) <> r) ->
  exists a' t' n' left, Clean_isoEdges r a t n = Ret (a', t', n') /\ alen a' = alen a /\ 0 <= n' <= n /\
    Permutation (map norm (filter live (seg a' n'))) (map norm (filter (wanted r) (seg a n)) ++ left) /\
    (left = [] \/ exists e, left = [norm e] /\ In (norm e) (map norm (seg a n)) /\ iso r e = true) /\
    (forall v, ~ hit r a n v -> aget t' v = aget t v).
Proof.
  intros Hn Ht Hv. unfold Clean_isoEdges.
  destruct (@edge_loop_ok r (S (Z.to_nat n)) 1 a t n) as (k & a' & t' & n1 & E & L & LT & B & C & P & D & R & T); [lia|lia|lia| |intros; lia|].
  { intros i Hi. apply Ht. apply seg_In. eauto. }
  rewrite E. cbn [bind].
  assert (Ca : ((k =? n1) || (k =? n1 + 1)) = true) by (destruct C as [->| ->]; rewrite Z.eqb_refl; auto using orb_true_r).
  rewrite Ca. cbn [c_assert bind]. rewrite rd_ok by lia. cbn [bind].
  assert (KW : forall b m, kept (to_remove r) b m = map norm (filter (wanted r) (seg b m))).
  { intros b m. unfold kept. f_equal. apply filter_ext. intros e. symmetry. apply wanted_drop. }
  rewrite !KW in P.
  assert (LW : forall m, m < n1 -> filter live (seg a' m) = filter (wanted r) (seg a' m)).
  { intros m Hm. apply filter_ext_seg. intros i Hi. rewrite wanted_drop. unfold live.
    specialize (D i ltac:(lia)). destruct (to_remove r (aget a' i)) eqn:Er.
    - rewrite D by reflexivity. reflexivity.
    - unfold to_remove in Er. destruct (i_a (aget a' i) =? 0); [discriminate|reflexivity]. }
  destruct (R n1 ltac:(lia)) as (q & Hq & Eq).
  pose proof (norm_fields _ _ Eq) as (Q1 & Q2 & Q3 & Q4).
  assert (Hin : In (aget a q) (seg a n)) by (apply seg_In; eauto).
  destruct (Z.eqb_spec (i_a (aget a' n1)) 0) as [Ez|Ez]; cbn [orb].
  - exists a', t', (n1 - 1), []. split; [reflexivity|]. split; [exact L|]. split; [lia|]. rewrite app_nil_r.
    split; [|auto]. rewrite <- P. rewrite LW by lia. rewrite (seg_last a' n1) by lia. rewrite filter_app. cbn [filter].
    unfold wanted at 3, live. rewrite Ez. cbn. rewrite app_nil_r. reflexivity.
  - destruct (Z.eqb_spec (Z.abs (i_a (aget a' n1))) r) as [Er|Er].
    + exfalso. apply (Hv (aget a q) Hin); rewrite <- Q1; assumption.
    + exists a', t', n1.
      assert (S : filter live (seg a' n1) = filter (wanted r) (seg a' (n1 - 1)) ++ [aget a' n1]).
      { rewrite (seg_last a' n1) by lia. rewrite filter_app, LW by lia. cbn [filter]. unfold live at 1.
        destruct (Z.eqb_spec (i_a (aget a' n1)) 0); [lia|]. reflexivity. }
      rewrite S. rewrite (seg_last a' n1) in P by lia. rewrite filter_app in P. cbn [filter] in P.
      destruct (wanted r (aget a' n1)) eqn:Ew.
      * exists []. rewrite app_nil_r. split; [reflexivity|]. split; [exact L|]. split; [lia|].
        split; [exact P|]. auto.
      * exists [norm (aget a' n1)]. split; [reflexivity|]. split; [exact L|]. split; [lia|].
        rewrite app_nil_r in P. rewrite map_app. split; [rewrite P; reflexivity|]. split; [|exact T].
        right. exists (aget a' n1). split; [reflexivity|]. split; [rewrite Eq; apply in_map; exact Hin|].
        unfold wanted, live in Ew. destruct (Z.eqb_spec (i_a (aget a' n1)) 0); [lia|]. cbn in Ew.
        destruct (iso r (aget a' n1)); [reflexivity|discriminate].
Qed.

(** The single edge of the isosurface stays. *)
Theorem C13_clean_edges_left_refuted : exists r a t n a' t' n' e,
  seg a n = [e] /\ live e = true /\ iso r e = true /\ ridge_edge e = false /\
  Clean_isoEdges r a t n = Ret (a', t', n') /\ seg a' n' = [e].
Proof.
  exists 10, (lst [tri 1 10]), (acalloc 4 0), 1. do 3 eexists. exists (tri 1 10).
  repeat split; reflexivity.
Qed.

(** The only edge, of reference 3, is discarded because it starts at vertex 10. *)
Theorem C13_clean_edges_lost_refuted : exists r a t n a' t' n' e,
  seg a n = [e] /\ live e = true /\ iso r e = false /\
  Clean_isoEdges r a t n = Ret (a', t', n') /\ seg a' n' = [].
Proof.
  exists 10, (lst [tri 10 3]), (acalloc 12 0), 1. do 3 eexists. exists (tri 10 3).
  repeat split; reflexivity.
Qed.

(** Two isosurface edges, one isosurface ridge, one hole and two others; the marks of
    vertices 1 and 2 are removed, those of vertex 7 stay. *)
Example C13_clean_edges_case :
  match Clean_isoEdges 10 (lst [tri 1 10; tri 1 (-10); mkI 3 4 10 2 3; tri 0 0; tri 5 (-6); tri 7 2])
                       (mkArr 20 (fun _ => 36)) 6 with
  | Ret (a', t', n') => Some (seg a' n', aget t' 1, aget t' 2, aget t' 7)
  | Stuck => None
  end = Some ([tri 7 2; tri 5 6; mkI 3 4 10 2 3], 0, 0, 36).
Proof. vm_compute. reflexivity. Qed.

Print Assumptions C13_skip_partial.
Print Assumptions C13_skip_trailing.
Print Assumptions C13_skip_duplicates_refuted.
Print Assumptions C13_skip_cursor_refuted.
Print Assumptions C13_clean_triangles.
Print Assumptions C13_clean_edges_partial.
Print Assumptions C13_clean_edges_left_refuted.
Print Assumptions C13_clean_edges_lost_refuted.
