(** Proofs on the API model: each call has the expected effect. *)
From Coq Require Import ZArith Reals List Bool Lia Lra.
From Verif Require Import CBase KerModel ApiModel ApiSpec.
Import ListNotations.
Open Scope Z_scope.

Record wf (m : amesh) : Prop := mkWf {
  wf_np : 0 <= mnp m <= mnpmax m;
  wf_pt : alen (mpt m) = mnpmax m + 1;
  wf_cnt : forall k, 0 <= mcnt m k <= mmax m k;
  wf_el : forall k, alen (mel m k) = mmax m k + 1;
  wf_tg : forall k i, 1 <= i <= mcnt m k -> length (etg (aget (mel m k) i)) = ntag k;
  wf_ev : forall k i, 1 <= i <= mcnt m k -> length (ev (aget (mel m k) i)) = nv k }.

Record obs (m : amesh) (w : view) : Prop := mkObs {
  o_c : forall i, 1 <= i <= mnp m -> pc (aget (mpt m) i) = w_c w i;
  o_ref : forall i, 1 <= i <= mnp m -> pref (aget (mpt m) i) = w_ref w i;
  o_crn : forall i, 1 <= i <= mnp m -> has (ptag (aget (mpt m) i)) MG_CRN = w_crn w i;
  o_req : forall i, 1 <= i <= mnp m -> has (ptag (aget (mpt m) i)) MG_REQ = w_req w i;
  oe_v : forall k i, 1 <= i <= mcnt m k -> ev (aget (mel m k) i) = we_v w k i;
  oe_ref : forall k i, 1 <= i <= mcnt m k -> eref (aget (mel m k) i) = we_ref w k i;
  oe_req : forall k i, 1 <= i <= mcnt m k -> reqd (aget (mel m k) i) = we_req w k i;
  oe_rid : forall k i, 1 <= i <= mcnt m k -> ridge (aget (mel m k) i) = we_rid w k i }.

Definition same_size (m m' : amesh) : Prop :=
  mnp m' = mnp m /\ mnpmax m' = mnpmax m /\ mcnt m' = mcnt m /\ mmax m' = mmax m /\
  mnpi m' = mnpi m /\ mcur m' = mcur m.

(** ** Tag bits *)

Lemma has_bit t n : 0 <= n -> has t (2 ^ n) = Z.testbit t n.
Proof.
  intros Hn. unfold has.
  replace (Z.land t (2 ^ n)) with (if Z.testbit t n then 2 ^ n else 0).
  - destruct (Z.testbit t n); [|reflexivity].
    destruct (Z.eqb_spec (2 ^ n) 0); [|reflexivity].
    pose proof (Z.pow_pos_nonneg 2 n ltac:(lia) Hn). lia.
  - apply Z.bits_inj'. intros k Hk. rewrite Z.land_spec.
    destruct (Z.eq_dec k n) as [->|Hne].
    + rewrite Z.pow2_bits_true by lia. destruct (Z.testbit t n) eqn:E.
      * rewrite Z.pow2_bits_true by lia. reflexivity.
      * rewrite Z.bits_0. reflexivity.
    + rewrite Z.pow2_bits_false by lia. rewrite andb_false_r.
      destruct (Z.testbit t n); [rewrite Z.pow2_bits_false by lia|rewrite Z.bits_0]; reflexivity.
Qed.

Lemma has_bset t n n' on : 0 <= n -> 0 <= n' ->
  has (bset (2 ^ n') on t) (2 ^ n) = if n =? n' then on else has t (2 ^ n).
Proof.
  intros H H'. rewrite !has_bit by assumption. unfold bset.
  destruct (Z.eqb_spec n n') as [->|Hne]; destruct on.
  - rewrite Z.lor_spec, Z.pow2_bits_true by lia. apply orb_true_r.
  - rewrite Z.ldiff_spec, Z.pow2_bits_true by lia. apply andb_false_r.
  - rewrite Z.lor_spec, Z.pow2_bits_false by lia. apply orb_false_r.
  - rewrite Z.ldiff_spec, Z.pow2_bits_false by lia. apply andb_true_r.
Qed.

Ltac bits :=
  change MG_NUL with (2 ^ 15) in *; change MG_CRN with (2 ^ 5) in *; change MG_REQ with (2 ^ 2) in *;
  change MG_GEO with (2 ^ 1) in *; change MG_REF with (2 ^ 0) in *; change MG_PARBDY with (2 ^ 13) in *;
  rewrite ?has_bset by lia; cbn [Z.eqb Pos.eqb].

Lemma kind_eqb_refl k : kind_eqb k k = true.
Proof. destruct k; reflexivity. Qed.
Lemma kind_eqb_true a b : kind_eqb a b = true -> a = b.
Proof. destruct a, b; simpl; congruence. Qed.

(** ** Consecutive reads and writes *)

Lemma rd_list_ok A (a : arr A) n : forall j,
  0 <= j -> j + Z.of_nat n <= alen a ->
  rd_list a j n = Ret (map (fun i => aget a (j + Z.of_nat i)) (seq 0 n)).
Proof.
  induction n as [|n IH]; intros j Hj Hl; [reflexivity|].
  cbn [rd_list seq map]. rewrite rd_ok by lia. cbn [bind].
  rewrite IH by lia. cbn [bind]. f_equal.
  f_equal; [f_equal; lia|].
  rewrite <- seq_shift, map_map. apply map_ext. intros i. f_equal. lia.
Qed.

Lemma wr_list_ok A (d : A) (l : list A) : forall (a : arr A) j,
  0 <= j -> j + Z.of_nat (length l) <= alen a ->
  exists a', wr_list a j l = Ret a' /\ alen a' = alen a /\
    (forall i, 0 <= i < Z.of_nat (length l) -> aget a' (j + i) = nth (Z.to_nat i) l d) /\
    (forall i, i < j \/ j + Z.of_nat (length l) <= i -> aget a' i = aget a i).
Proof.
  induction l as [|x l IH]; intros a j Hj Hl; cbn [wr_list length] in *.
  - exists a. repeat split; try reflexivity. intros; lia.
  - rewrite wr_ok by lia. cbn [bind].
    destruct (IH (mkArr (alen a) (upd (aget a) j x)) (j + 1)) as (a' & E & L & H1 & H2); cbn [alen] in *; try lia.
    exists a'. split; [exact E|]. split; [exact L|]. split.
    + intros i Hi. destruct (Z.eq_dec i 0) as [->|Hne].
      * rewrite H2 by lia. cbn [aget]. replace (j + 0) with j by lia. rewrite upd_same. reflexivity.
      * replace (j + i) with (j + 1 + (i - 1)) by lia. rewrite H1 by lia.
        replace (Z.to_nat i) with (S (Z.to_nat (i - 1))) by lia. reflexivity.
    + intros i Hi. rewrite H2 by lia. cbn [aget]. apply upd_other. lia.
Qed.

(** ** Vertices *)

(** The vertex array changed at most by the deletion mark. *)
Definition same_pts (a a' : arr pnt) : Prop :=
  alen a' = alen a /\ forall i, 0 <= i < alen a ->
    pc (aget a' i) = pc (aget a i) /\ pref (aget a' i) = pref (aget a i) /\
    has (ptag (aget a' i)) MG_CRN = has (ptag (aget a i)) MG_CRN /\
    has (ptag (aget a' i)) MG_REQ = has (ptag (aget a i)) MG_REQ.

Lemma same_pts_refl a : same_pts a a.
Proof. split; [reflexivity|]. intros; repeat split; reflexivity. Qed.

Lemma same_pts_trans a b c : same_pts a b -> same_pts b c -> same_pts a c.
Proof.
  intros [L1 H1] [L2 H2]. split; [congruence|]. intros i Hi.
  destruct (H1 i Hi) as (A1 & A2 & A3 & A4). destruct (H2 i) as (B1 & B2 & B3 & B4); [lia|].
  repeat split; congruence.
Qed.

Lemma clear_nul_ok vs : forall a,
  Forall (fun v => 0 <= v < alen a) vs ->
  exists a', clear_nul a vs = Ret a' /\ same_pts a a'.
Proof.
  induction vs as [|v vs IH]; intros a H; cbn [clear_nul].
  - exists a. split; [reflexivity|apply same_pts_refl].
  - apply Forall_cons_iff in H. destruct H as [Hv H].
    rewrite rd_ok by lia. cbn [bind]. rewrite wr_ok by lia. cbn [bind].
    match goal with |- context [clear_nul ?x vs] => set (a1 := x) end.
    assert (S1 : same_pts a a1).
    { split; [reflexivity|]. intros i Hi. unfold a1. cbn [aget alen].
      destruct (Z.eq_dec i v) as [->|Hne].
      - rewrite upd_same. cbn [pc pref ptag]. bits. repeat split; reflexivity.
      - rewrite upd_other by exact Hne. repeat split; reflexivity. }
    destruct (IH a1) as (a' & E & S2).
    + destruct S1 as [L _]. rewrite L. exact H.
    + exists a'. split; [exact E|]. eapply same_pts_trans; eassumption.
Qed.

Lemma orvol_pts_ok a vs w np :
  length vs = 4%nat -> Forall (fun v => 1 <= v <= np) vs -> np < alen a ->
  (forall i, 1 <= i <= np -> pc (aget a i) = w i) ->
  orvol_pts a vs = Ret (vol6 w vs).
Proof.
  intros Hl Hf Hn Hc.
  destruct vs as [|a0 [|a1 [|a2 [|a3 [|]]]]]; try discriminate Hl.
  rewrite !Forall_cons_iff in Hf. destruct Hf as (F0 & F1 & F2 & F3 & _).
  cbn [orvol_pts]. rewrite !rd_ok by lia. cbn [bind]. rewrite !Hc by lia.
  f_equal. unfold vol6, det4pt, det3pt1vec. cbn [nth vx vy vz]. ring.
Qed.

Lemma same_size_refl m : same_size m m.
Proof. repeat split. Qed.

(** Changing the vertices only. *)
Lemma obs_set_pts m w a w' :
  wf m -> alen a = alen (mpt m) ->
  (forall i, 1 <= i <= mnp m -> pc (aget a i) = w_c w' i) ->
  (forall i, 1 <= i <= mnp m -> pref (aget a i) = w_ref w' i) ->
  (forall i, 1 <= i <= mnp m -> has (ptag (aget a i)) MG_CRN = w_crn w' i) ->
  (forall i, 1 <= i <= mnp m -> has (ptag (aget a i)) MG_REQ = w_req w' i) ->
  we_v w' = we_v w -> we_ref w' = we_ref w -> we_req w' = we_req w -> we_rid w' = we_rid w ->
  obs m w ->
  wf (set_pts m a) /\ obs (set_pts m a) w' /\ same_size m (set_pts m a).
Proof.
  intros W L H1 H2 H3 H4 E1 E2 E3 E4 O. destruct W, O.
  split; [|split; [|repeat split]].
  - constructor; cbn; try assumption. congruence.
  - constructor; cbn; try assumption; intros; rewrite ?E1, ?E2, ?E3, ?E4; auto.
Qed.

(** Changing the elements of one kind only. *)
Lemma obs_set_els m w k a w' :
  wf m -> alen a = alen (mel m k) ->
  (forall i, 1 <= i <= mcnt m k -> length (etg (aget a i)) = ntag k /\ length (ev (aget a i)) = nv k /\
     ev (aget a i) = we_v w' k i /\ eref (aget a i) = we_ref w' k i /\
     reqd (aget a i) = we_req w' k i /\ ridge (aget a i) = we_rid w' k i) ->
  (forall k' i, kind_eqb k' k = false -> we_v w' k' i = we_v w k' i /\ we_ref w' k' i = we_ref w k' i /\
     we_req w' k' i = we_req w k' i /\ we_rid w' k' i = we_rid w k' i) ->
  w_c w' = w_c w -> w_ref w' = w_ref w -> w_crn w' = w_crn w -> w_req w' = w_req w ->
  obs m w ->
  wf (set_els m k a) /\ obs (set_els m k a) w' /\ same_size m (set_els m k a).
Proof.
  intros W L H1 H2 E1 E2 E3 E4 O. destruct W, O.
  assert (Hk : forall k' i, 1 <= i <= mcnt m k' -> kind_eqb k' k = true -> 1 <= i <= mcnt m k).
  { intros k' i Hi E. apply kind_eqb_true in E. subst. exact Hi. }
  split; [|split; [|repeat split]].
  - constructor; cbn; try assumption.
    + intros k'. destruct (kind_eqb k' k) eqn:E; [|auto]. apply kind_eqb_true in E. subst. congruence.
    + intros k' i Hi. destruct (kind_eqb k' k) eqn:E; [|auto]. pose proof (kind_eqb_true _ _ E). subst k'. apply H1. exact Hi.
    + intros k' i Hi. destruct (kind_eqb k' k) eqn:E; [|auto]. pose proof (kind_eqb_true _ _ E). subst k'. apply H1. exact Hi.
  - constructor; cbn; rewrite ?E1, ?E2, ?E3, ?E4; try assumption;
      intros k' i Hi; destruct (kind_eqb k' k) eqn:E;
      try (pose proof (kind_eqb_true _ _ E); subst k'; apply H1; exact Hi);
      destruct (H2 k' i E) as (A1 & A2 & A3 & A4); rewrite ?A1, ?A2, ?A3, ?A4; auto.
Qed.

Lemma obs_same_pts m w a : wf m -> obs m w -> same_pts (mpt m) a ->
  wf (set_pts m a) /\ obs (set_pts m a) w /\ same_size m (set_pts m a).
Proof.
  intros W O [L H]. destruct (W) as [Wn Wp _ _ _ _], O.
  apply (@obs_set_pts m w a w); auto; [..|constructor; auto];
    intros i Hi; destruct (H i) as (A1 & A2 & A3 & A4); try lia; rewrite ?A1, ?A2, ?A3, ?A4; auto.
Qed.

Lemma interval_In lo n i : In i (interval lo n) <-> lo <= i < lo + n.
Proof.
  unfold interval. rewrite in_map_iff. split.
  - intros (x & <- & Hx). apply in_seq in Hx. lia.
  - intros H. exists (Z.to_nat (i - lo)). split; [lia|]. apply in_seq. lia.
Qed.

(** ** Effect of each call *)

Definition step_ok (c : call) (m : amesh) (w : view) : Prop :=
  exists m', exec c m = Ret (fst (expect (mnp m) (mcnt m) c w), m') /\
    wf m' /\ obs m' (snd (expect (mnp m) (mcnt m) c w)) /\ same_size m m'.

Lemma step_vertex m w c r pos : wf m -> obs m w -> 1 <= pos -> step_ok (CVertex c r pos) m w.
Proof.
  intros W O Hp. unfold step_ok. cbn [exec expect]. unfold Set_vertex.
  destruct (W) as [Wn Wp _ _ _ _].
  destruct (Z.leb_spec pos (mnp m)) as [Hle|Hgt]; cbn [fst snd].
  - destruct (Z.eqb_spec (mnp m) 0); [lia|]. destruct (Z.ltb_spec (mnpmax m) pos); [lia|].
    destruct (Z.ltb_spec (mnp m) pos); [lia|]. rewrite wr_ok by lia. cbn [bind].
    eexists. split; [reflexivity|].
    apply obs_set_pts with (w := w); auto; cbn [alen aget set_v w_c w_ref w_crn w_req we_v we_ref we_req we_rid]; unfold pick;
      intros i Hi; destruct (Z.eqb_spec pos i) as [<-|Hne];
      rewrite ?upd_same, ?upd_other by lia; try reflexivity; destruct O; auto.
  - exists m. split; [|split; [assumption|split; [assumption|apply same_size_refl]]].
    destruct (Z.eqb_spec (mnp m) 0); [reflexivity|]. destruct (Z.ltb_spec (mnpmax m) pos); [reflexivity|].
    destruct (Z.ltb_spec (mnp m) pos); [reflexivity|lia].
Qed.

Lemma rd_ref_ok refs j old n : ok_refs refs n -> 0 <= j < n ->
  rd_ref refs j old = Ret (given refs (fun _ => old) (j + 1)).
Proof.
  unfold ok_refs, rd_ref, given. destruct refs as [a|]; intros H Hj; [|reflexivity].
  rewrite rd_ok by lia. do 2 f_equal. lia.
Qed.

Lemma given_ext A (refs : option (arr A)) f g i : f i = g i -> given refs f i = given refs g i.
Proof. unfold given. destruct refs; congruence. Qed.

Lemma step_vertices m w vs refs : wf m -> obs m w -> 3 * mnp m <= alen vs -> ok_refs refs (mnp m) ->
  step_ok (CVertices vs refs) m w.
Proof.
  intros W O Hv Hr. unfold step_ok. cbn [exec expect fst snd]. unfold Set_vertices.
  destruct (W) as [Wn Wp _ _ _ _].
  match goal with |- context [for_range 1 (mnp m) ?f (mpt m)] => set (F := f) end.
  destruct (@for_range_inv _ (fun i a => alen a = alen (mpt m) /\ forall j, 1 <= j <= mnp m ->
     if j <? i then
       aget a j = mkPt (V3 (aget vs (3 * (j - 1))) (aget vs (3 * (j - 1) + 1)) (aget vs (3 * (j - 1) + 2)))
                       (given refs (fun j => pref (aget (mpt m) j)) j) MG_NUL 0 0
     else aget a j = aget (mpt m) j) F 1 (mnp m) (mpt m)) as (a & E & L & H).
  - lia.
  - split; [reflexivity|]. intros j Hj. destruct (Z.ltb_spec j 1); [lia|reflexivity].
  - intros i s Hi [L H]. unfold F. rewrite rd_ok by lia. cbn [bind].
    rewrite rd_list_ok by lia. cbn [bind seq map nth].
    rewrite (@rd_ref_ok refs (i - 1) _ (mnp m)) by (assumption || lia). cbn [bind].
    rewrite wr_ok by lia. eexists. split; [reflexivity|]. cbn [alen aget]. split; [exact L|].
    intros j Hj. pose proof (H j Hj) as Hj'. destruct (Z.eq_dec j i) as [->|Hne].
    + rewrite upd_same. destruct (Z.ltb_spec i (i + 1)); [|lia].
      destruct (Z.ltb_spec i i); [lia|]. replace (i - 1 + 1) with i by lia.
      f_equal.
      * f_equal; f_equal; lia.
      * unfold given. destruct refs; congruence.
    + rewrite upd_other by exact Hne.
      destruct (Z.ltb_spec j i), (Z.ltb_spec j (i + 1)); try lia; exact Hj'.
  - rewrite E. cbn [bind]. eexists. split; [reflexivity|].
    apply obs_set_pts with (w := w); auto; cbn [set_v w_c w_ref w_crn w_req]; unfold pick; intros i Hi;
      specialize (H i Hi); destruct (Z.ltb_spec i (mnp m + 1)); try lia; rewrite H; cbn [pc pref ptag]; try reflexivity.
    apply given_ext. destruct O; auto.
Qed.

Ltac split_sel pos i := cbn [set_e w_c w_ref w_crn w_req we_v we_ref we_req we_rid]; unfold pickk, pick; cbv beta;
  rewrite ?kind_eqb_refl; destruct (Z.eqb_spec pos i) as [<-|Hne]; rewrite ?upd_same, ?upd_other by lia.

(** Storing an element in its array. *)
Lemma obs_put m w k pos vs r tg w' :
  wf m -> obs m w -> 1 <= pos <= mcnt m k -> length vs = nv k ->
  length tg = ntag k ->
  forallb (fun t => has t MG_REQ) tg = we_req w k pos ->
  forallb (fun t => has t MG_GEO) tg = we_rid w k pos ->
  w' = set_e k (Z.eqb pos) (fun _ => vs) (fun _ => r) w ->
  let m' := set_els m k (mkArr (alen (mel m k)) (upd (aget (mel m k)) pos (mkEl vs r tg))) in
  wf m' /\ obs m' w' /\ same_size m m'.
Proof.
  intros W O Hp Hv Ht Hq Hd ->. cbv zeta.
  apply obs_set_els with (w := w); auto; cbn [alen aget].
  - intros i Hi. split_sel pos i.
    + cbn [ev eref etg]. unfold reqd, ridge. cbn [etg]. repeat split; auto.
    + destruct W, O. repeat split; auto.
  - intros k' i E. cbn [set_e we_v we_ref we_req we_rid]. unfold pickk. rewrite E. repeat split.
Qed.

Lemma forallb_bset_other b n on tg : 0 <= n -> 0 <= b -> n <> b ->
  forallb (fun t => has t (2 ^ n)) (map (bset (2 ^ b) on) tg) = forallb (fun t => has t (2 ^ n)) tg.
Proof.
  intros H1 H2 H3. induction tg as [|t tg IH]; [reflexivity|]. cbn [map forallb].
  rewrite IH, has_bset by assumption. destruct (Z.eqb_spec n b); [lia|reflexivity].
Qed.

Lemma forallb_bset_same n on tg : 0 <= n -> tg <> [] ->
  forallb (fun t => has t (2 ^ n)) (map (bset (2 ^ n) on) tg) = on.
Proof.
  intros H Hne. destruct tg as [|t tg]; [congruence|]. clear Hne. revert t.
  induction tg as [|u tg IH]; intros t; cbn [map forallb]; rewrite has_bset, Z.eqb_refl by assumption.
  - apply andb_true_r.
  - cbn [map forallb] in IH. rewrite IH. apply andb_diag.
Qed.

Definition mark_ref (k : kind) : list Z -> list Z := match k with KEdg => map (bset MG_REF true) | _ => fun t => t end.

Lemma mark_ref_ok k tg :
  length (mark_ref k tg) = length tg /\
  forallb (fun t => has t MG_REQ) (mark_ref k tg) = forallb (fun t => has t MG_REQ) tg /\
  forallb (fun t => has t MG_GEO) (mark_ref k tg) = forallb (fun t => has t MG_GEO) tg.
Proof.
  destruct k; cbn [mark_ref]; try (repeat split; reflexivity).
  split; [apply map_length|]. bits. split; apply forallb_bset_other; lia.
Qed.

(** [store_tet] does what is documented. *)
Lemma store_tet_ok m w pos vs r :
  wf m -> obs m w -> 1 <= pos <= mcnt m KTet -> length vs = 4%nat -> Forall (fun v => 1 <= v <= mnp m) vs ->
  exists m', store_tet m pos vs r =
      Ret (if flat_tet (w_c w) vs then None else Some (ltb (vol6 (w_c w) vs) 0), m') /\
    wf m' /\ obs m' (set_e KTet (Z.eqb pos) (fun _ => oriented (w_c w) vs) (fun _ => r) w) /\ same_size m m'.
Proof.
  intros W O Hp Hl Hf. destruct (W) as [Wn Wp Wc We Wt Wv].
  unfold store_tet. rewrite rd_ok by (specialize (We KTet); specialize (Wc KTet); lia). cbn [bind].
  rewrite wr_ok by (specialize (We KTet); specialize (Wc KTet); lia). cbn [bind].
  destruct (@clear_nul_ok vs (mpt m)) as (pts & E & S).
  { eapply Forall_impl; [|exact Hf]. intros v Hv. cbv beta in Hv. lia. }
  rewrite E. cbn [bind].
  destruct (@obs_same_pts m w pts W O S) as (W1 & O1 & SS1).
  rewrite (@orvol_pts_ok pts vs (w_c w) (mnp m)); auto.
  2:{ destruct S as [L _]. lia. }
  2:{ destruct O1. exact o_c0. }
  cbn [bind]. unfold flat_tet.
  set (vol := vol6 (w_c w) vs). destruct (O) as [_ _ _ _ Ov Or Oq Od].
  destruct (ltb EPSD2 (Rabs vol)) eqn:EV; cbn [negb].
  - destruct (ltb vol 0) eqn:EN.
    + rewrite wr_ok by (cbn [alen]; specialize (We KTet); specialize (Wc KTet); lia). cbn [bind alen aget].
      eexists. split; [reflexivity|].
      assert (Eo : oriented (w_c w) vs = swap23 vs).
      { unfold oriented, swap23. unfold flat_tet. fold vol. rewrite EV, EN.
        destruct vs as [|a0 [|a1 [|a2 [|a3 [|]]]]]; reflexivity. }
      rewrite Eo.
      set (tg := etg (aget (mel m KTet) pos)).
      match goal with |- wf (set_els (set_els ?m1 KTet ?x) KTet ?y) /\ _ /\ _ => set (els2 := y); set (M := set_els (set_els m1 KTet x) KTet y) end.
      assert (EM : wf (set_els (set_pts m pts) KTet els2) /\
                   obs (set_els (set_pts m pts) KTet els2) (set_e KTet (Z.eqb pos) (fun _ => swap23 vs) (fun _ => r) w) /\
                   same_size (set_pts m pts) (set_els (set_pts m pts) KTet els2)).
      { apply obs_set_els with (w := w); auto; cbn [alen aget els2 set_pts mel].
        - intros i Hi. cbn [set_pts mcnt] in Hi.
          cbn [set_e we_v we_ref we_req we_rid]. unfold pickk, pick; cbv beta. rewrite kind_eqb_refl.
          destruct (Z.eqb_spec pos i) as [<-|Hne].
          + rewrite !upd_same. cbn [ev eref etg]. unfold reqd, ridge. cbn [etg].
            repeat split; auto.
            * apply Wt. exact Hi.
            * destruct vs as [|a0 [|a1 [|a2 [|a3 [|]]]]]; try discriminate Hl. reflexivity.
            * apply (Oq KTet pos Hi).
            * apply (Od KTet pos Hi).
          + rewrite !upd_other by lia. repeat split; auto.
        - intros k' i E'. cbn [set_e we_v we_ref we_req we_rid]. unfold pickk. rewrite E'. repeat split. }
      destruct EM as (WM & OM & SM).
      split; [|split].
      * destruct WM. constructor; cbn in *; auto.
        -- intros k. specialize (wf_el0 k). destruct (kind_eqb k KTet); exact wf_el0.
        -- intros k i Hi. specialize (wf_tg0 k i Hi). destruct (kind_eqb k KTet); exact wf_tg0.
        -- intros k i Hi. specialize (wf_ev0 k i Hi). destruct (kind_eqb k KTet); exact wf_ev0.
      * destruct OM. constructor; cbn in *; auto;
          intros k i Hi;
          [specialize (oe_v0 k i Hi)|specialize (oe_ref0 k i Hi)|specialize (oe_req0 k i Hi)|specialize (oe_rid0 k i Hi)];
          destruct (kind_eqb k KTet); assumption.
      * repeat split.
    + eexists. split; [reflexivity|].
      assert (Eo : oriented (w_c w) vs = vs).
      { unfold oriented, flat_tet. fold vol. rewrite EV, EN.
        destruct vs as [|a0 [|a1 [|a2 [|a3 [|]]]]]; reflexivity. }
      rewrite Eo. apply (@obs_put (set_pts m pts) w KTet pos vs r (etg (aget (mel m KTet) pos))); auto;
        first [apply (Oq KTet pos Hp) | apply (Od KTet pos Hp)].
  - eexists. split; [reflexivity|].
    assert (Eo : oriented (w_c w) vs = vs).
    { unfold oriented, flat_tet. fold vol. rewrite EV.
      destruct vs as [|a0 [|a1 [|a2 [|a3 [|]]]]]; reflexivity. }
    rewrite Eo. apply (@obs_put (set_pts m pts) w KTet pos vs r (etg (aget (mel m KTet) pos))); auto;
        first [apply (Oq KTet pos Hp) | apply (Od KTet pos Hp)].
Qed.

Lemma wf_cong m m' : mnp m' = mnp m -> mnpmax m' = mnpmax m -> mpt m' = mpt m -> mcnt m' = mcnt m ->
  mmax m' = mmax m -> mel m' = mel m -> wf m -> wf m'.
Proof. intros E1 E2 E3 E4 E5 E6 []. constructor; rewrite ?E1, ?E2, ?E3, ?E4, ?E5, ?E6; auto. Qed.

Lemma obs_cong m m' w : mnp m' = mnp m -> mpt m' = mpt m -> mcnt m' = mcnt m ->
  mel m' = mel m -> obs m w -> obs m' w.
Proof. intros E1 E3 E4 E6 []. constructor; rewrite ?E1, ?E3, ?E4, ?E6; auto. Qed.

Lemma step_elt k m w vs r pos : wf m -> obs m w -> 1 <= pos -> length vs = nv k ->
  (vol_kind k = true -> Forall (fun v => 1 <= v <= mnp m) vs) -> step_ok (CElt k vs r pos) m w.
Proof.
  intros W O Hp Hl Hf. unfold step_ok. cbn [exec expect].
  destruct (W) as [Wn Wp Wc We Wt Wv]. pose proof (Wc k) as Wck. pose proof (We k) as Wek.
  destruct (Z.ltb_spec (mcnt m k) pos) as [Hgt|Hle].
  { exists m. cbn [fst snd]. split; [|split; [assumption|split; [assumption|apply same_size_refl]]].
    destruct k; cbn [Set_elt]; unfold Set_tetrahedron, Set_prism, Set_triangle, Set_quadrilateral, Set_edge;
      repeat match goal with |- context [?x =? 0] => destruct (Z.eqb_spec x 0); [reflexivity|]
                           | |- context [mmax m ?k <? pos] => destruct (Z.ltb_spec (mmax m k) pos); [reflexivity|] end;
      match goal with |- context [mcnt m ?k <? pos] => destruct (Z.ltb_spec (mcnt m k) pos); [reflexivity|lia] end. }
  assert (G1 : (mcnt m k =? 0) = false) by (apply Z.eqb_neq; lia).
  assert (G2 : (mmax m k <? pos) = false) by (apply Z.ltb_ge; lia).
  assert (G3 : (mcnt m k <? pos) = false) by (apply Z.ltb_ge; lia).
  destruct (O) as [_ _ _ _ Ov Or Oq Od].
  destruct k; cbn [Set_elt fst snd]; unfold Set_tetrahedron, Set_prism, Set_triangle, Set_quadrilateral, Set_edge;
    rewrite ?G1, ?G2, ?G3.
  - destruct (@store_tet_ok m w pos vs (Z.abs r)) as (m1 & E & W1 & O1 & S1); auto.
    rewrite E. cbn [bind].
    destruct (flat_tet (w_c w) vs); cbn [negb b2z].
    + exists m1. auto.
    + destruct (ltb (vol6 (w_c w) vs) 0).
      * exists (set_xt m1 (mxt m1 + 1)). split; [reflexivity|]. split; [|split].
        -- eapply wf_cong; [..|exact W1]; reflexivity.
        -- eapply obs_cong; [..|exact O1]; reflexivity.
        -- exact S1.
      * exists m1. auto.
  - rewrite rd_ok by lia. cbn [bind]. rewrite wr_ok by lia. cbn [bind].
    destruct (@clear_nul_ok vs (mpt m)) as (pts & E & S).
    { eapply Forall_impl; [|exact (Hf eq_refl)]. intros v Hv. cbv beta in Hv. lia. }
    rewrite E. cbn [bind].
    destruct (@obs_same_pts m w pts W O S) as (W1 & O1 & SS1).
    eexists. split; [reflexivity|].
    apply (@obs_put (set_pts m pts) w KPri pos vs r (etg (aget (mel m KPri) pos))); auto; cbn; try lia; first [apply Wt; lia | apply (Oq KPri pos); lia | apply (Od KPri pos); lia].
  - unfold put_elt. rewrite rd_ok by lia. cbn [bind]. rewrite wr_ok by lia. cbn [bind].
    eexists. split; [reflexivity|].
    apply (@obs_put m w KTri pos vs r (etg (aget (mel m KTri) pos))); auto; try lia.
    all: first [apply Wt; lia | apply (Oq KTri pos); lia | apply (Od KTri pos); lia].
  - unfold put_elt. rewrite rd_ok by lia. cbn [bind]. rewrite wr_ok by lia. cbn [bind].
    eexists. split; [reflexivity|].
    apply (@obs_put m w KQua pos vs r (etg (aget (mel m KQua) pos))); auto; try lia.
    all: first [apply Wt; lia | apply (Oq KQua pos); lia | apply (Od KQua pos); lia].
  - unfold put_elt. rewrite rd_ok by lia. cbn [bind]. rewrite wr_ok by lia. cbn [bind].
    eexists. split; [reflexivity|].
    destruct (@mark_ref_ok KEdg (etg (aget (mel m KEdg) pos))) as (M1 & M2 & M3). cbn [mark_ref] in *.
    apply (@obs_put m w KEdg pos vs r (map (bset MG_REF true) (etg (aget (mel m KEdg) pos)))); auto; try lia.
    all: first [rewrite M1; apply Wt; lia | rewrite M2; apply (Oq KEdg pos); lia | rewrite M3; apply (Od KEdg pos); lia].
Qed.

Lemma obs_ext m w w' : 
  (forall i, 1 <= i <= mnp m -> w_c w' i = w_c w i /\ w_ref w' i = w_ref w i /\ w_crn w' i = w_crn w i /\ w_req w' i = w_req w i) ->
  (forall k i, 1 <= i <= mcnt m k -> we_v w' k i = we_v w k i /\ we_ref w' k i = we_ref w k i /\
     we_req w' k i = we_req w k i /\ we_rid w' k i = we_rid w k i) ->
  obs m w -> obs m w'.
Proof.
  intros H1 H2 []. constructor; intros;
    try (destruct (H1 i) as (A1 & A2 & A3 & A4); [assumption|]; rewrite ?A1, ?A2, ?A3, ?A4; auto; fail);
    destruct (H2 k i) as (A1 & A2 & A3 & A4); try assumption; rewrite ?A1, ?A2, ?A3, ?A4; auto.
Qed.

Lemma interval_snoc lo n : 0 < n -> interval lo n = interval lo (n - 1) ++ [lo + n - 1].
Proof.
  intros H. unfold interval. replace (Z.to_nat n) with (S (Z.to_nat (n - 1))) by lia.
  rewrite seq_S, map_app. cbn [map]. do 2 f_equal. lia.
Qed.

Lemma row_ok k flat i : 1 <= i -> i * Z.of_nat (nv k) <= alen flat ->
  rd_list flat ((i - 1) * Z.of_nat (nv k)) (nv k) = Ret (row k flat i) /\ length (row k flat i) = nv k.
Proof.
  intros Hi Hl. split.
  - rewrite rd_list_ok by nia. reflexivity.
  - unfold row. rewrite map_length, seq_length. reflexivity.
Qed.

Lemma row_range k flat i n np : 1 <= i <= n ->
  (forall j, 0 <= j < n * Z.of_nat (nv k) -> 1 <= aget flat j <= np) -> Forall (fun v => 1 <= v <= np) (row k flat i).
Proof.
  intros Hi H. unfold row. apply Forall_map. apply Forall_forall. intros x Hx. apply in_seq in Hx. apply H. nia.
Qed.

Lemma same_size_trans a b c : same_size a b -> same_size b c -> same_size a c.
Proof. intros (A1 & A2 & A3 & A4 & A5 & A6) (B1 & B2 & B3 & B4 & B5 & B6). repeat split; congruence. Qed.

Lemma step_tets m w flat refs : wf m -> obs m w -> ok_call (mnp m) (mcnt m) (CElts KTet flat refs) ->
  step_ok (CElts KTet flat refs) m w.
Proof.
  intros W O (Hl & Hr & Hf). specialize (Hf eq_refl). unfold step_ok. cbn [exec expect Set_elts fst snd].
  set (fl := fun j => negb (flat_tet (w_c w) (row KTet flat j))).
  set (ok := fun i => forallb fl (interval 1 i)).
  set (nr := fun i => match refs with None => we_ref w KTet i | Some a => Z.abs (aget a (i - 1)) end).
  set (view_at := fun i => set_e KTet (fun j => (j <? i) && ok (j - 1)) (fun j => oriented (w_c w) (row KTet flat j)) nr w).
  assert (Hok : forall i, 1 <= i -> ok i = ok (i - 1) && fl i).
  { intros i Hi. unfold ok. rewrite interval_snoc by lia. rewrite forallb_app. cbn [forallb].
    replace (1 + i - 1) with i by lia. rewrite andb_true_r. reflexivity. }
  unfold Set_tetrahedra.
  match goal with |- context [for_range 1 _ ?f _] => set (F := f) end.
  destruct (@for_range_inv _ (fun i (s : Z * amesh) => fst s = b2z (ok (i - 1)) /\ wf (snd s) /\ obs (snd s) (view_at i) /\ same_size m (snd s))
     F 1 (mcnt m KTet) (1, set_xp m 0)) as ((ret & m') & E & R & W' & O' & S').
  - destruct W as [_ _ Wc _ _ _]. specialize (Wc KTet). lia.
  - cbn [fst snd]. split; [reflexivity|]. split; [eapply wf_cong; [..|exact W]; reflexivity|]. split; [|repeat split].
    apply obs_cong with (m := m); try reflexivity. eapply obs_ext; [..|exact O].
    + intros i Hi. repeat split.
    + intros k i Hi. unfold view_at. cbn [set_e we_v we_ref we_req we_rid]. unfold pickk, pick; cbv beta.
      destruct (Z.ltb_spec i 1); [lia|]. cbn [andb]. destruct (kind_eqb k KTet); repeat split.
  - intros i (ret & mi) Hi (R & Wi & Oi & Si). cbn [fst snd] in *.
    unfold F. cbv beta iota.
    destruct (ok (i - 1)) eqn:Eok; cbn [b2z] in R; subst ret; cbn [Z.eqb].
    + destruct (@row_ok KTet flat i) as [Er Lr]; [lia|cbn [nv] in *; lia|]. cbn [nv] in Er. change (Z.of_nat 4) with 4 in Er. rewrite Er. cbn [bind].
      destruct (Wi) as [Wni Wpi Wci Wei Wti Wvi]. destruct Si as (S1 & S2 & S3 & S4 & S5 & S6).
      rewrite rd_ok by (specialize (Wei KTet); specialize (Wci KTet); rewrite S3 in *; lia). cbn [bind].
      assert (En : (match refs with None => Ret (eref (aget (mel mi KTet) i)) | Some a => x <- rd a (i - 1) ;; Ret (Z.abs x) end) = Ret (nr i)).
      { unfold nr. destruct refs as [a|].
        - cbn [ok_refs] in Hr. rewrite rd_ok by lia. reflexivity.
        - f_equal. destruct Oi as [_ _ _ _ _ Orf _ _]. rewrite Orf by (rewrite S3; lia).
          unfold view_at. cbn [set_e we_ref]. unfold pickk, pick; cbv beta. cbn [kind_eqb]. destruct (Z.ltb_spec i i); [lia|]. reflexivity. }
      rewrite En. cbn [bind].
      destruct (@store_tet_ok mi (view_at i) i (row KTet flat i) (nr i)) as (m1 & E1 & W1 & O1 & SS1); auto.
      { rewrite S3. lia. }
      { rewrite S1. eapply row_range; [|exact Hf]. lia. }
      rewrite E1. cbn [bind].
      change (w_c (view_at i)) with (w_c w) in *.
      assert (ON : obs m1 (view_at (i + 1))).
      { eapply obs_ext; [..|exact O1].
        - intros j Hj. repeat split.
        - intros k j Hj. unfold view_at. cbn [set_e we_v we_ref we_req we_rid]. unfold pickk, pick; cbv beta.
          destruct (kind_eqb k KTet) eqn:Ek; [|rewrite ?Ek; repeat split].
          rewrite ?Ek. destruct (Z.eqb_spec i j) as [<-|Hne].
          + destruct (Z.ltb_spec i (i + 1)); [|lia]. cbn [andb]. rewrite Eok. repeat split.
          + replace (j <? i + 1) with (j <? i) by (destruct (Z.ltb_spec j i), (Z.ltb_spec j (i + 1)); lia). repeat split. }
      assert (SS : same_size m m1) by (eapply same_size_trans; [|exact SS1]; repeat split; assumption).
      replace (i + 1 - 1) with i by lia.
      assert (Eoi : ok i = negb (flat_tet (w_c w) (row KTet flat i))) by (rewrite Hok by lia; rewrite Eok; reflexivity).
      rewrite Eoi.
      destruct (flat_tet (w_c w) (row KTet flat i)); cbn [negb b2z].
      * exists (0, m1). cbn [fst snd]. auto.
      * destruct (ltb (vol6 (w_c w) (row KTet flat i)) 0).
        -- exists (1, set_xp m1 (mxp m1 + 1)). cbn [fst snd]. split; [reflexivity|]. split; [reflexivity|]. split; [|split].
           ++ eapply wf_cong; [..|exact W1]; reflexivity.
           ++ eapply obs_cong; [..|exact ON]; reflexivity.
           ++ exact SS.
        -- exists (1, m1). cbn [fst snd]. auto.
    + exists (0, mi). split; [reflexivity|]. cbn [fst snd]. replace (i + 1 - 1) with i by lia.
      rewrite Hok by lia. rewrite Eok. cbn [andb b2z]. split; [reflexivity|]. split; [assumption|]. split; [|assumption].
      eapply obs_ext; [..|exact Oi].
      * intros j Hj. repeat split.
      * intros k j Hj. unfold view_at. cbn [set_e we_v we_ref we_req we_rid]. unfold pickk, pick; cbv beta.
        destruct (kind_eqb k KTet) eqn:Ek; [|repeat split].
        destruct (Z.eq_dec j i) as [->|Hne].
        -- rewrite Eok, !andb_false_r. repeat split.
        -- replace (j <? i + 1) with (j <? i) by (destruct (Z.ltb_spec j i), (Z.ltb_spec j (i + 1)); lia). repeat split.
  - exists m'. rewrite E. cbn [fst snd] in *. split; [|split; [assumption|split; [|assumption]]].
    + replace (mcnt m KTet + 1 - 1) with (mcnt m KTet) in R by lia. rewrite R. reflexivity.
    + eapply obs_ext; [..|exact O'].
      * intros j Hj. repeat split.
      * intros k j Hj. unfold view_at. cbn [set_e we_v we_ref we_req we_rid]. unfold pickk, pick; cbv beta.
        destruct (kind_eqb k KTet) eqn:Ek; [|repeat split].
        apply kind_eqb_true in Ek. subst k. destruct S' as (_ & _ & S3 & _). rewrite S3 in Hj.
        destruct (Z.ltb_spec j (mcnt m KTet + 1)); [|lia]. cbn [andb]. fold (ok (j - 1)). repeat split.
Qed.

Lemma step_prisms m w flat refs : wf m -> obs m w -> ok_call (mnp m) (mcnt m) (CElts KPri flat refs) ->
  step_ok (CElts KPri flat refs) m w.
Proof.
  intros W O (Hl & Hr & Hf). specialize (Hf eq_refl). unfold step_ok. cbn [exec expect Set_elts fst snd].
  set (view_at := fun i => set_e KPri (fun j => j <? i) (row KPri flat) (given refs (we_ref w KPri)) w).
  unfold Set_prisms.
  match goal with |- context [for_range 1 _ ?f _] => set (F := f) end.
  destruct (@for_range_inv _ (fun i (mi : amesh) => wf mi /\ obs mi (view_at i) /\ same_size m mi)
     F 1 (mcnt m KPri) m) as (m' & E & W' & O' & S').
  - destruct W as [_ _ Wc _ _ _]. specialize (Wc KPri). lia.
  - split; [assumption|]. split; [|apply same_size_refl].
    eapply obs_ext; [..|exact O].
    + intros i Hi. repeat split.
    + intros k i Hi. unfold view_at. cbn [set_e we_v we_ref we_req we_rid]. unfold pickk, pick; cbv beta.
      destruct (Z.ltb_spec i 1); [lia|]. destruct (kind_eqb k KPri); repeat split.
  - intros i mi Hi (Wi & Oi & Si). unfold F.
    destruct (@row_ok KPri flat i) as [Er Lr]; [lia|cbn [nv] in *; lia|]. cbn [nv] in Er. change (Z.of_nat 6) with 6 in Er. rewrite Er. cbn [bind].
    destruct (Wi) as [Wni Wpi Wci Wei Wti Wvi]. destruct Si as (S1 & S2 & S3 & S4 & S5 & S6).
    pose proof (Wei KPri) as We1. pose proof (Wci KPri) as Wc1. rewrite S3 in Wc1.
    rewrite rd_ok by lia. cbn [bind].
    rewrite (@rd_ref_ok refs (i - 1) _ (mcnt m KPri)) by (assumption || lia). cbn [bind].
    rewrite wr_ok by lia. cbn [bind].
    destruct (@clear_nul_ok (row KPri flat i) (mpt mi)) as (pts & Ep & Sp).
    { eapply Forall_impl; [|eapply row_range; [|exact Hf]; lia]. intros v Hv. cbv beta in Hv. lia. }
    rewrite Ep. cbn [bind].
    destruct (@obs_same_pts mi (view_at i) pts Wi Oi Sp) as (W1 & O1 & SS1).
    eexists. split; [reflexivity|].
    destruct (Oi) as [_ _ _ _ Ov Orf Oq Od].
    edestruct (@obs_put (set_pts mi pts) (view_at i) KPri i (row KPri flat i)
       (given refs (fun _ : Z => eref (aget (mel mi KPri) i)) (i - 1 + 1)) (etg (aget (mel mi KPri) i))) as (W2 & O2 & SS2); [..|reflexivity|]; auto.
    { cbn. rewrite S3. lia. }
    { apply Wti. rewrite S3. lia. }
    { apply (Oq KPri i). rewrite S3. lia. }
    { apply (Od KPri i). rewrite S3. lia. }
    split; [exact W2|]. split.
    + eapply obs_ext; [..|exact O2].
      * intros j Hj. repeat split.
      * intros k j Hj. unfold view_at. cbn [set_e we_v we_ref we_req we_rid]. unfold pickk, pick; cbv beta.
        destruct (kind_eqb k KPri) eqn:Ek; [|rewrite ?Ek; repeat split]. rewrite ?Ek.
        destruct (Z.eqb_spec i j) as [<-|Hne].
        -- destruct (Z.ltb_spec i (i + 1)); [|lia]. repeat split.
           replace (i - 1 + 1) with i by lia. apply given_ext. symmetry. rewrite Orf by (rewrite S3; lia).
           unfold view_at. cbn [set_e we_ref]. unfold pickk, pick; cbv beta. cbn [kind_eqb]. destruct (Z.ltb_spec i i); [lia|reflexivity].
        -- replace (j <? i + 1) with (j <? i) by (destruct (Z.ltb_spec j i), (Z.ltb_spec j (i + 1)); lia). repeat split.
    + eapply same_size_trans; [|exact SS2]. repeat split; assumption.
  - exists m'. rewrite E. split; [reflexivity|]. split; [assumption|]. split; [|assumption].
    eapply obs_ext; [..|exact O'].
    + intros j Hj. repeat split.
    + intros k j Hj. unfold view_at. cbn [set_e we_v we_ref we_req we_rid]. unfold pickk, pick; cbv beta.
      destruct (kind_eqb k KPri) eqn:Ek; [|repeat split].
      apply kind_eqb_true in Ek. subst k. destruct S' as (_ & _ & S3 & _). rewrite S3 in Hj.
      destruct (Z.ltb_spec j (mcnt m KPri + 1)); [|lia]. repeat split.
Qed.

Lemma put_elts_ok k m w flat refs : wf m -> obs m w ->
  mcnt m k * Z.of_nat (nv k) <= alen flat -> ok_refs refs (mcnt m k) ->
  exists m', put_elts k m flat refs (mark_ref k) = Ret (1, m') /\ wf m' /\
    obs m' (set_e k (fun _ => true) (row k flat) (given refs (we_ref w k)) w) /\ same_size m m'.
Proof.
  intros W O Hl Hr. unfold put_elts. destruct (W) as [Wn Wp Wc We Wt Wv].
  pose proof (Wc k) as Wck. pose proof (We k) as Wek.
  match goal with |- context [for_range 1 _ ?f _] => set (F := f) end.
  destruct (@for_range_inv _ (fun i a => alen a = alen (mel m k) /\ forall j, 1 <= j <= mcnt m k ->
     if j <? i then
       aget a j = mkEl (row k flat j) (given refs (fun j => eref (aget (mel m k) j)) j) (mark_ref k (etg (aget (mel m k) j)))
     else aget a j = aget (mel m k) j) F 1 (mcnt m k) (mel m k)) as (a & E & L & H).
  - lia.
  - split; [reflexivity|]. intros j Hj. destruct (Z.ltb_spec j 1); [lia|reflexivity].
  - intros i s Hi [L H]. unfold F.
    destruct (@row_ok k flat i) as [Er Lr]; [lia|nia|]. rewrite Er. cbn [bind].
    rewrite rd_ok by lia. cbn [bind].
    rewrite (@rd_ref_ok refs (i - 1) _ (mcnt m k)) by (assumption || lia). cbn [bind].
    rewrite wr_ok by lia. eexists. split; [reflexivity|]. cbn [alen aget]. split; [exact L|].
    intros j Hj. pose proof (H j Hj) as Hj'. destruct (Z.eq_dec j i) as [->|Hne].
    + rewrite upd_same. destruct (Z.ltb_spec i (i + 1)); [|lia].
      destruct (Z.ltb_spec i i); [lia|]. replace (i - 1 + 1) with i by lia. rewrite Hj'.
      f_equal.
    + rewrite upd_other by exact Hne.
      destruct (Z.ltb_spec j i), (Z.ltb_spec j (i + 1)); try lia; exact Hj'.
  - rewrite E. cbn [bind]. eexists. split; [reflexivity|].
    destruct (O) as [_ _ _ _ Ov Orf Oq Od].
    apply obs_set_els with (w := w); auto.
    + intros i Hi. specialize (H i Hi). destruct (Z.ltb_spec i (mcnt m k + 1)); [|lia]. rewrite H.
      cbn [ev eref etg set_e we_v we_ref we_req we_rid]. unfold pickk, pick, reqd, ridge. rewrite kind_eqb_refl. cbn [etg].
      destruct (@mark_ref_ok k (etg (aget (mel m k) i))) as (M1 & M2 & M3).
      rewrite M1, M2, M3. repeat split.
      * apply Wt. exact Hi.
      * apply row_ok; [lia|nia].
      * apply given_ext. apply Orf. exact Hi.
      * apply (Oq k i Hi).
      * apply (Od k i Hi).
    + intros k' i Ek. cbn [set_e we_v we_ref we_req we_rid]. unfold pickk. rewrite Ek. repeat split.
Qed.

Lemma step_elts k m w flat refs : wf m -> obs m w -> ok_call (mnp m) (mcnt m) (CElts k flat refs) ->
  step_ok (CElts k flat refs) m w.
Proof.
  intros W O H. destruct k.
  - apply step_tets; assumption.
  - apply step_prisms; assumption.
  - destruct H as (H1 & H2 & _). apply (@put_elts_ok KTri); assumption.
  - destruct H as (H1 & H2 & _). apply (@put_elts_ok KQua); assumption.
  - destruct H as (H1 & H2 & _). apply (@put_elts_ok KEdg); assumption.
Qed.

Lemma step_corner m w pos on : wf m -> obs m w -> 1 <= pos <= mnp m -> step_ok (CCorner pos on) m w.
Proof.
  intros W O Hp. destruct (W) as [Wn Wp _ _ _ _]. unfold step_ok. cbn [exec expect fst snd]. unfold corner.
  replace (pos <=? mnp m) with true by (symmetry; apply Z.leb_le; lia). cbn [c_assert bind].
  rewrite rd_ok by lia. cbn [bind]. rewrite wr_ok by lia. cbn [bind].
  eexists. split; [reflexivity|]. destruct (O).
  apply obs_set_pts with (w := w); auto; cbn [alen aget w_c w_ref w_crn w_req]; unfold pick; intros i Hi;
    (destruct (Z.eq_dec i pos) as [->|Hne]; [rewrite upd_same; cbn [pc pref ptag]|rewrite upd_other by exact Hne]);
    rewrite ?Z.eqb_refl; auto.
  - bits. reflexivity.
  - destruct (Z.eqb_spec pos i); [lia|]. auto.
  - bits. change (2 ^ 2) with MG_REQ. auto.
Qed.

Lemma step_reqv m w pos on : wf m -> obs m w -> 1 <= pos <= mnp m -> step_ok (CReqVertex pos on) m w.
Proof.
  intros W O Hp. destruct (W) as [Wn Wp _ _ _ _]. unfold step_ok. cbn [exec expect fst snd]. unfold requiredVertex.
  replace (pos <=? mnp m) with true by (symmetry; apply Z.leb_le; lia). cbn [c_assert bind].
  rewrite rd_ok by lia. cbn [bind]. rewrite wr_ok by lia. cbn [bind].
  eexists. split; [reflexivity|]. destruct (O).
  apply obs_set_pts with (w := w); auto; cbn [alen aget w_c w_ref w_crn w_req]; unfold pick; intros i Hi;
    (destruct (Z.eq_dec i pos) as [->|Hne]; [rewrite upd_same; cbn [pc pref ptag]|rewrite upd_other by exact Hne]);
    rewrite ?Z.eqb_refl; auto.
  - destruct on; bits; change (2 ^ 5) with MG_CRN; auto.
  - destruct on; bits; reflexivity.
  - destruct (Z.eqb_spec pos i); [lia|]. auto.
Qed.

Lemma mark_elt_ok q m w on i : wf m -> obs m w -> 1 <= i <= mcnt m (mark_kind q) ->
  exists m', mark_elt m (mark_kind q) (mark_bit q) on i = Ret m' /\ wf m' /\
    obs m' (mark_view q (Z.eqb i) on w) /\ same_size m m'.
Proof.
  intros W O Hi. destruct (W) as [Wn Wp Wc We Wt Wv]. unfold mark_elt.
  pose proof (Wc (mark_kind q)) as Wck. pose proof (We (mark_kind q)) as Wek.
  rewrite rd_ok by lia. cbn [bind]. rewrite wr_ok by lia. cbn [bind].
  eexists. split; [reflexivity|]. destruct (O) as [_ _ _ _ Ov Orf Oq Od].
  assert (Hne : etg (aget (mel m (mark_kind q)) i) <> []).
  { intros E. specialize (Wt _ _ Hi). rewrite E in Wt. destruct q; discriminate Wt. }
  apply obs_set_els with (w := w); auto; try (destruct q; reflexivity).
  - intros j Hj. cbn [aget alen].
    assert (Hw : we_v (mark_view q (Z.eqb i) on w) = we_v w /\ we_ref (mark_view q (Z.eqb i) on w) = we_ref w) by (destruct q; split; reflexivity).
    destruct Hw as [-> ->].
    destruct (Z.eq_dec j i) as [->|Hji].
    + rewrite upd_same. cbn [ev eref etg]. rewrite map_length. split; [auto|]. split; [auto|]. split; [auto|]. split; [auto|].
      unfold reqd, ridge. cbn [etg].
      specialize (Oq _ _ Hi). specialize (Od _ _ Hi). unfold reqd, ridge in Oq, Od.
      destruct q; cbn [mark_kind mark_bit mark_view we_req we_rid] in *; unfold pickk, pick; cbv beta; cbn [kind_eqb]; rewrite ?Z.eqb_refl; bits;
        rewrite ?forallb_bset_same, ?forallb_bset_other by (lia || assumption); split; auto.
    + rewrite upd_other by exact Hji. repeat split; auto.
      * rewrite Oq by exact Hj. destruct q; cbn [mark_kind mark_view we_req]; unfold pickk, pick; cbv beta; cbn [kind_eqb]; try reflexivity;
          destruct (Z.eqb_spec i j); [lia|reflexivity| lia|reflexivity| lia|reflexivity].
      * rewrite Od by exact Hj. destruct q; cbn [mark_kind mark_view we_rid]; unfold pickk, pick; cbv beta; cbn [kind_eqb]; try reflexivity.
        destruct (Z.eqb_spec i j); [lia|reflexivity].
  - intros k j Ek. destruct q; cbn [mark_kind mark_view we_v we_ref we_req we_rid] in *; unfold pickk; rewrite ?Ek; repeat split.
Qed.

Lemma step_mark q m w pos on : wf m -> obs m w -> 1 <= pos <= mcnt m (mark_kind q) -> step_ok (CMark q pos on) m w.
Proof.
  intros W O Hp. unfold step_ok. cbn [exec expect fst snd]. unfold markElt.
  replace (pos <=? mcnt m (mark_kind q)) with true by (symmetry; apply Z.leb_le; lia). cbn [c_assert bind].
  destruct (@mark_elt_ok q m w on pos W O Hp) as (m' & E & H). rewrite E. cbn [bind]. exists m'. auto.
Qed.

Lemma existsb_snoc f (l : list Z) x : existsb f (l ++ [x]) = existsb f l || f x.
Proof. rewrite existsb_app. cbn [existsb]. rewrite orb_false_r. reflexivity. Qed.

Lemma step_marks q m w idx n on : wf m -> obs m w -> n <= alen idx ->
  (forall j, 0 <= j < n -> 1 <= aget idx j <= mcnt m (mark_kind q)) -> step_ok (CMarks q idx n on) m w.
Proof.
  intros W O Hl Hi. unfold step_ok. cbn [exec expect fst snd]. unfold markElts.
  set (sel := fun n i => existsb (fun j => aget idx j =? i) (interval 0 n)).
  destruct (Z.le_gt_cases n 0) as [Hn|Hn].
  { unfold for_range. replace (Z.to_nat (n - 1 - 0 + 1)) with 0%nat by lia. cbn [for_up bind].
    exists m. split; [reflexivity|]. split; [assumption|]. split; [|apply same_size_refl].
    unfold interval. replace (Z.to_nat n) with 0%nat by lia. cbn [seq map existsb].
    eapply obs_ext; [..|exact O]; intros; destruct q; cbn [mark_view we_v we_ref we_req we_rid]; unfold pickk, pick; cbv beta;
      repeat split; match goal with |- (if ?b then _ else _) = _ => destruct b; reflexivity end. }
  destruct (@for_range_inv _ (fun j mj => wf mj /\ obs mj (mark_view q (sel j) on w) /\ same_size m mj)
    (fun j m => i <- rd idx j ;; mark_elt m (mark_kind q) (mark_bit q) on i) 0 (n - 1) m) as (m' & E & W' & O' & S').
  - lia.
  - split; [assumption|]. split; [|apply same_size_refl].
    eapply obs_ext; [..|exact O]; intros; destruct q; cbn [mark_view we_v we_ref we_req we_rid]; unfold pickk, pick; cbv beta;
      repeat split; match goal with |- (if ?b then _ else _) = _ => destruct b; reflexivity end.
  - intros j mj Hj (Wj & Oj & Sj). rewrite rd_ok by lia. cbn [bind].
    destruct (Sj) as (S1 & S2 & S3 & S4 & S5 & S6).
    destruct (@mark_elt_ok q mj (mark_view q (sel j) on w) on (aget idx j)) as (m1 & E1 & W1 & O1 & SS1); auto.
    { rewrite S3. apply Hi. lia. }
    exists m1. split; [exact E1|]. split; [exact W1|]. split; [|eapply same_size_trans; eassumption].
    assert (Hs : forall i, sel (j + 1) i = sel j i || (aget idx j =? i)).
    { intros i. unfold sel. rewrite (@interval_snoc 0 (j + 1)) by lia. replace (j + 1 - 1) with j by lia.
      rewrite existsb_snoc. do 3 f_equal. lia. }
    eapply obs_ext; [..|exact O1].
    + intros i Hii. destruct q; repeat split.
    + intros k i Hii. destruct q; cbn [mark_view we_v we_ref we_req we_rid]; unfold pickk, pick; cbv beta;
        repeat split; rewrite ?Hs;
        try (match goal with |- context [kind_eqb k ?k2] => destruct (kind_eqb k k2) eqn:Ek end; rewrite ?Ek; try reflexivity);
        destruct (aget idx j =? i), (sel j i); reflexivity.
  - rewrite E. cbn [bind]. exists m'. replace (n - 1 + 1) with n in O' by lia. auto.
Qed.

Theorem step c m w : wf m -> obs m w -> ok_call (mnp m) (mcnt m) c -> step_ok c m w.
Proof.
  intros W O H. destruct c; cbn [ok_call] in H.
  - apply step_vertex; assumption.
  - apply step_vertices; tauto.
  - apply step_elt; tauto.
  - apply step_elts; assumption.
  - apply step_corner; assumption.
  - apply step_reqv; assumption.
  - apply step_mark; assumption.
  - destruct H. apply step_marks; assumption.
Qed.

Theorem steps np cnt h : forall m w, wf m -> obs m w -> mnp m = np -> mcnt m = cnt ->
  Forall (ok_call np cnt) h ->
  exists m', run h m = Ret (fst (expects np cnt h w), m') /\ wf m' /\ obs m' (snd (expects np cnt h w)) /\ same_size m m'.
Proof.
  induction h as [|c h IH]; intros m w W O En Ec Hf.
  - exists m. cbn. auto using same_size_refl.
  - apply Forall_cons_iff in Hf. destruct Hf as [Hc Hf]. subst np cnt.
    destruct (@step c m w W O Hc) as (m1 & E1 & W1 & O1 & S1).
    cbn [run expects]. rewrite E1. cbn [bind].
    destruct (expect (mnp m) (mcnt m) c w) as [r w1]. cbn [fst snd] in *.
    destruct (S1) as (A1 & A2 & A3 & A4 & A5 & A6).
    destruct (IH m1 w1 W1 O1 A1 A3 Hf) as (m2 & E2 & W2 & O2 & S2).
    rewrite E2. cbn [bind].
    destruct (expects (mnp m) (mcnt m) h w1) as [rs w2]. cbn [fst snd] in *.
    exists m2. split; [reflexivity|]. split; [assumption|]. split; [assumption|]. eapply same_size_trans; eassumption.
Qed.

Lemma new_mesh_ok np npmax cnt max : 0 <= np <= npmax -> (forall k, 0 <= cnt k <= max k) ->
  wf (new_mesh np npmax cnt max) /\ obs (new_mesh np npmax cnt max) view0.
Proof.
  intros H1 H2. split; constructor; cbn; auto; try (intros k i Hi; apply repeat_length);
    intros k i Hi; destruct k; reflexivity.
Qed.
