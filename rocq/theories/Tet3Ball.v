(** The ball of a vertex found by [MMG5_boulevolp]. *)
From Coq Require Import ZArith List Lia Bool.
From Verif Require Import CBase Tet3Model Tet3Spec Tet3Proofs.
Import ListNotations.
Open Scope Z_scope.

(** Only flags differ. *)
Definition but_flags (m m' : mesh) : Prop :=
  alen (m_tet m') = alen (m_tet m) /\
  (forall k, qv (aget (m_tet m') k) = qv (aget (m_tet m) k) /\ qref (aget (m_tet m') k) = qref (aget (m_tet m) k) /\
             qtag (aget (m_tet m') k) = qtag (aget (m_tet m) k) /\ qxt (aget (m_tet m') k) = qxt (aget (m_tet m) k)) /\
  m_adj m' = m_adj m /\ m_xt m' = m_xt m /\ m_nil m' = m_nil m /\ m_ne m' = m_ne m /\ m_nemax m' = m_nemax m /\
  m_nxt m' = m_nxt m /\ m_gaps m' = m_gaps m /\ m_xgaps m' = m_xgaps m.

Definition els (l : list Z) : list Z := map (fun e => e / 4) l.

Section Ball.
Variable m : mesh.
Hypothesis T : tables_ok m.
Hypothesis V : vertices_ok m.
Hypothesis A : adjacent m.
Variable start ip : Z.
Hypothesis LS : live m start.
Hypothesis LI : loc ip.
Let p := vtx m start ip.
Let base := m_base m + 1.

Definition entry (e : Z) : Prop := exists k i, e = 4 * k + i /\ live m k /\ loc i /\ vtx m k i = p /\ ball m p start k.

Definition INV (m' : mesh) (l : list Z) : Prop :=
  but_flags m m' /\ m_base m' = base /\ (exists r, l = (4 * start + ip) :: r) /\
  (forall e, In e l -> entry e) /\ NoDup (els l) /\
  (forall k, live m k -> (qflag (aget (m_tet m') k) = base <-> In k (els l))) /\
  (forall k, live m k -> qflag (aget (m_tet m') k) <= base) /\
  Z.of_nat (length l) <= LMAX - 2.

(** More tetrahedra than the list can hold. *)
Definition too_many : Prop := exists l, NoDup l /\ Z.of_nat (length l) > LMAX - 2 /\ forall k, In k l -> live m k /\ has m k p /\ ball m p start k.

Lemma els_app l r : els (l ++ r) = els l ++ els r.
Proof. apply map_app. Qed.

Lemma els_one k j : loc j -> els [4 * k + j] = [k].
Proof. intros L. unfold els. cbn [map]. rewrite dec_div by exact L. reflexivity. Qed.

Lemma NoDup_snoc {X} (l : list X) x : NoDup l -> ~ In x l -> NoDup (l ++ [x]).
Proof.
  intros H N. induction H as [|y l Hy H IH]; cbn; [repeat constructor; intros []|].
  constructor; [|apply IH; intros ?; apply N; right; assumption].
  rewrite in_app_iff. intros [?|[->|[]]]; [contradiction|apply N; left; reflexivity].
Qed.

Fixpoint nxts (n : nat) (i : Z) : list Z := match n with O => [] | S n => inxt3 i :: nxts n (inxt3 i) end.

Lemma boule_faces_ok n : forall m' l k i i0, INV m' l -> live m k -> loc i0 -> vtx m k i0 = p -> ball m p start k ->
  loc i -> (forall a, In a (nxts n i) -> a <> i0) ->
  (boule_faces n m' p l k i = Ret None /\ too_many) \/
  exists m2 r, boule_faces n m' p l k i = Ret (Some (m2, l ++ r)) /\ INV m2 (l ++ r) /\
    forall a, In a (nxts n i) -> nb m k a <> 0 -> In (nb m k a / 4) (els (l ++ r)).
Proof.
  induction n as [|n IH]; intros m' l k i i0 I LK LI0 E0 BK Li NI; cbn [boule_faces nxts].
  - right. exists m', []. rewrite app_nil_r. split; [reflexivity|]. split; [exact I|]. intros a [].
  - pose proof (loc_nxt i Li) as Ln. assert (NI0 : inxt3 i <> i0) by (apply NI; left; reflexivity).
    assert (NI' : forall a, In a (nxts n (inxt3 i)) -> a <> i0) by (intros a Ha; apply NI; right; exact Ha).
    set (i1 := inxt3 i) in *. pose proof I as (BF & BB & ST & EN & ND & FL & FB0 & LE).
    pose proof BF as (AL & FI & EA & EX & _).
    assert (GA : get_adj m' k i1 = Ret (nb m k i1)).
    { unfold get_adj. rewrite EA. apply get_adj_ok; [apply live_intab; assumption|exact Ln]. }
    rewrite GA. cbn [bind]. destruct (Z.eqb_spec (nb m k i1) 0) as [Z0|NZ].
    + destruct (IH m' l k i1 i0) as [H|(m2 & r & R & I2 & C)]; try assumption; [left; exact H|].
      right. exists m2, r. split; [exact R|]. split; [exact I2|]. intros a [<-|Ha] Hn; [contradiction|apply C; assumption].
    + destruct (nb_dec m k i1 V A LK Ln NZ) as (Ll & Lj & BK1 & NK & SF). set (k1 := nb m k i1 / 4) in *. set (j1 := nb m k i1 mod 4) in *.
      assert (TK : intab m k1) by (apply live_intab; assumption).
      assert (GT : get_t m' k1 = Ret (aget (m_tet m') k1)) by (apply rd_ok; rewrite AL; apply TK).
      rewrite GT. cbn [bind]. rewrite BB. destruct (Z.eqb_spec (qflag (aget (m_tet m') k1)) base) as [FB|FB].
      * destruct (IH m' l k i1 i0) as [H|(m2 & r & R & I2 & C)]; try assumption; [left; exact H|].
        right. exists m2, r. split; [exact R|]. split; [exact I2|]. intros a [<-|Ha] Hn; [|apply C; assumption].
        rewrite els_app. apply in_or_app. left. apply FL; assumption.
      * assert (ON : on_face m k i1 p) by (rewrite <- E0; apply on_other; [exact LI0|congruence]).
        assert (HP : has m k1 p) by (apply (on_has m k1 j1), SF, ON).
        assert (BK2 : ball m p start k1).
        { apply reach_step with k; [exact BK|exact Ll|]. exists i1, j1. auto. }
        assert (N1 : ~ In k1 (els l)) by (rewrite <- FL by exact Ll; exact FB).
        unfold set_flag. rewrite GT. cbn [bind]. unfold set_t. rewrite wr_ok by (rewrite AL; apply TK). cbn [bind].
        destruct (first_vtx m k1 p V Ll HP) as (j & Lj2 & Fj & Ej).
        destruct (FI k1) as (Q & _). rewrite Q. rewrite Fj.
        replace (j <? 4) with true by (symmetry; apply Z.ltb_lt; apply loc_le in Lj2; lia). cbn [c_assert bind].
        destruct (Z.gtb_spec (Z.of_nat (length l)) (LMAX - 3)) as [TM|SM].
        -- left. split; [reflexivity|]. exists (els l ++ [k1]). split; [apply NoDup_snoc; assumption|].
           split; [rewrite app_length; unfold els; rewrite map_length; cbn [length]; unfold LMAX in *; lia|].
           intros q Hq. apply in_app_or in Hq. destruct Hq as [Hq|[<-|[]]]; [|auto].
           unfold els in Hq. apply in_map_iff in Hq. destruct Hq as (e & <- & He). destruct (EN e He) as (k' & i' & -> & L' & Li' & E' & B').
           rewrite dec_div by exact Li'. split; [exact L'|]. split; [exists i'; auto|exact B'].
        -- match goal with |- context [boule_faces n ?x] => set (m1 := x) end.
           assert (I1 : INV m1 (l ++ [4 * k1 + j])).
           { unfold INV. split; [|split; [exact BB|split; [|split; [|split; [|split; [|split]]]]]].
             - destruct BF as (_ & _ & R). split; [exact AL|]. split; [|exact R]. intros q. subst m1. cbn. unfold upd. destruct (Z.eqb_spec q k1) as [->|]; [cbn; split; [reflexivity|apply (FI k1)]|apply FI].
             - destruct ST as [r ->]. exists (r ++ [4 * k1 + j]). reflexivity.
             - intros e He. apply in_app_or in He. destruct He as [He|[<-|[]]]; [apply EN, He|]. exists k1, j. auto.
             - rewrite els_app, els_one by exact Lj2. apply NoDup_snoc; assumption.
             - intros q Hq. rewrite els_app, in_app_iff, els_one by exact Lj2. subst m1. cbn [aget m_tet p_tet]. unfold upd. cbn [In].
               destruct (Z.eqb_spec q k1) as [->|N]; [cbn [qflag]; tauto|]. rewrite (FL q Hq). intuition congruence.
             - intros q Hq. subst m1. cbn. unfold upd. destruct (Z.eqb_spec q k1) as [->|N]; [cbn; lia|apply FB0, Hq].
             - rewrite app_length. cbn [length]. lia. }
           destruct (IH m1 (l ++ [4 * k1 + j]) k i1 i0 I1) as [H|(m2 & r & R & I2 & C)]; try assumption; [left; exact H|].
           right. exists m2, (4 * k1 + j :: r). rewrite <- app_assoc in R, I2, C. cbn [app] in R, I2, C. split; [exact R|]. split; [exact I2|].
           intros a [<-|Ha] Hn; [|apply C; assumption]. rewrite els_app. apply in_or_app. right. left. apply dec_div, Lj2.
Qed.

Lemma nxts3 i0 a : loc i0 -> loc a -> a <> i0 -> In a (nxts 3 i0).
Proof. intros [->|[->|[->| ->]]] [->|[->|[->| ->]]] N; cbn; auto; congruence. Qed.
Lemma nxts3_neq i0 a : loc i0 -> In a (nxts 3 i0) -> a <> i0.
Proof. intros [->|[->|[->| ->]]] H; cbn in H; lia. Qed.

(** Everything next to the first [cur] entries is in the list. *)
Definition closed (l : list Z) (cur : nat) : Prop :=
  forall n e, (n < cur)%nat -> nth_error l n = Some e ->
  forall a, loc a -> a <> e mod 4 -> nb m (e / 4) a <> 0 -> In (nb m (e / 4) a / 4) (els l).

Lemma boule_loop_ok fuel : forall m' l cur, INV m' l -> closed l cur -> (cur <= length l)%nat -> (Z.to_nat LMAX < fuel + cur)%nat ->
  (boule_loop fuel m' p l cur = Ret None /\ too_many) \/
  exists m2 l2, boule_loop fuel m' p l cur = Ret (Some (m2, l2)) /\ INV m2 l2 /\ closed l2 (length l2).
Proof.
  induction fuel as [|fuel IH]; intros m' l cur I C LE FU.
  - exfalso. destruct I as (_ & _ & _ & _ & _ & _ & _ & LL). cbn in FU. clear - LE FU LL. unfold LMAX in *. lia.
  - cbn [boule_loop]. destruct (nth_error l cur) as [e|] eqn:EN.
    + assert (HE : entry e) by (destruct I as (_ & _ & _ & H & _); apply H; eapply nth_error_In; eassumption).
      destruct HE as (k & i & -> & LK & Li & E0 & B). rewrite dec_div, dec_mod by exact Li.
      destruct (boule_faces_ok 3 m' l k i i I LK Li E0 B Li) as [[R TM]|(m2 & r & R & I2 & C2)].
      * intros a. apply nxts3_neq, Li.
      * rewrite R. left. auto.
      * rewrite R. cbn [bind]. apply IH.
        -- exact I2.
        -- intros n e Hn He a La Na Nz. destruct (Nat.eq_dec n cur) as [->|Nn].
           ++ assert (X : e = 4 * k + i).
              { rewrite nth_error_app1 in He by (apply nth_error_Some; congruence). congruence. }
              subst e. rewrite dec_div in * by exact Li. rewrite dec_mod in Na by exact Li. apply C2; [|exact Nz]. apply nxts3; assumption.
           ++ assert (Lt : (n < cur)%nat) by (clear - Hn Nn; lia). rewrite nth_error_app1 in He by (clear - Lt LE; lia).
              rewrite els_app. apply in_or_app. left. apply (C n e Lt He a La Na Nz).
        -- assert (cur < length l)%nat by (apply nth_error_Some; congruence). rewrite app_length. clear - H. lia.
        -- clear - FU. lia.
    + right. exists m', l. split; [reflexivity|]. split; [exact I|]. apply nth_error_None in EN.
      replace (length l) with cur by lia. exact C.
Qed.

(** The ball is found, once and entirely. *)
Lemma boulevolp_ok : flags_ok m ->
  (boulevolp m start ip = Ret None /\ too_many) \/
  exists m2 l, boulevolp m start ip = Ret (Some (m2, l)) /\ but_flags m m2 /\ m_base m2 = base /\ flags_ok m2 /\
    (exists r, l = (4 * start + ip) :: r) /\ NoDup (els l) /\
    (forall k, In k (els l) <-> ball m p start k) /\
    (forall e, In e l -> exists k i, e = 4 * k + i /\ live m k /\ loc i /\ vtx m k i = p).
Proof.
  intros FO. unfold boulevolp. pose proof (live_intab m start T LS) as TS.
  change (get_t (p_base m (m_base m + 1)) start) with (get_t m start). rewrite get_t_ok by exact TS. cbn [bind].
  assert (LI3 := proj1 (loc_le ip) LI).
  replace ((0 <=? ip) && (ip <? 4)) with true by (symmetry; rewrite andb_true_iff, Z.leb_le, Z.ltb_lt; lia). cbn [c_assert bind].
  unfold set_flag. change (get_t (p_base m (m_base m + 1)) start) with (get_t m start). rewrite get_t_ok by exact TS. cbn [bind].
  unfold set_t. rewrite wr_ok by apply TS. cbn [bind].
  match goal with |- context [boule_loop _ ?x] => set (m1 := x) end. change (qv (aget (m_tet m) start) ip) with p.
  assert (I : INV m1 [4 * start + ip]).
  { split; [|split; [reflexivity|split; [exists []; reflexivity|split; [|split; [|split; [|split]]]]]].
    - split; [reflexivity|]. split; [|repeat split; reflexivity]. intros k. subst m1. cbn. unfold upd. destruct (Z.eqb_spec k start) as [->|]; cbn; auto.
    - intros e [<-|[]]. exists start, ip. split; [reflexivity|]. split; [exact LS|]. split; [exact LI|]. split; [reflexivity|]. apply reach_refl.
    - rewrite els_one by exact LI. constructor; [intros []|constructor].
    - intros k Lk. rewrite els_one by exact LI. subst m1. cbn [aget m_tet p_tet p_base]. unfold upd. cbn [In].
      destruct (Z.eqb_spec k start) as [->|N]; [cbn [qflag]; tauto|]. split; [intros E|intros [->|[]]; congruence].
      exfalso. pose proof (FO k Lk). unfold base in E. lia.
    - intros k Lk. subst m1. cbn. unfold upd. destruct (Z.eqb_spec k start) as [->|N]; [cbn; lia|]. pose proof (FO k Lk). unfold base. lia.
    - cbn [length]. unfold LMAX. lia. }
  destruct (boule_loop_ok (S (Z.to_nat LMAX)) m1 [4 * start + ip] 0 I) as [[R TM]|(m2 & l & R & I2 & C)].
  - intros n e Hn. lia.
  - cbn. lia.
  - lia.
  - rewrite R. left. auto.
  - rewrite R. right. exists m2, l. split; [reflexivity|]. destruct I2 as (BF & BB & ST & EN & ND & FL & FB0 & LE).
    split; [exact BF|]. split; [exact BB|].
    assert (BALL : forall k, In k (els l) <-> ball m p start k).
    { intros k. split.
      - intros H. unfold els in H. apply in_map_iff in H. destruct H as (e & <- & He). destruct (EN e He) as (q & i & -> & _ & Li & _ & B).
        rewrite dec_div by exact Li. exact B.
      - intros B. induction B as [|y z B IHB Lz M].
        + destruct ST as [r ->]. left. apply dec_div, LI.
        + destruct (Z.eq_dec z y) as [->|NZ]; [exact IHB|]. destruct M as (i & j & Li & Lj & S & ON).
          unfold els in IHB. apply in_map_iff in IHB. destruct IHB as (e & Ee & He). destruct (EN e He) as (q & i0 & -> & Lq & Li0 & E0 & _).
          rewrite dec_div in Ee by exact Li0. subst q. apply In_nth_error in He. destruct He as [n Hn].
          assert (NB : nb m y i = 4 * z + j) by (apply nb_same; assumption).
          assert (IN : In (nb m y i / 4) (els l)).
          { pose proof (C n _ (proj1 (nth_error_Some l n) ltac:(congruence)) Hn i Li) as H. rewrite dec_div, dec_mod in H by exact Li0. apply H.
            - intros ->. apply (not_on m y i0 V Lq Li). rewrite E0. exact ON.
            - rewrite NB. apply live_pos in Lz. apply loc_le in Lj. lia. }
          rewrite NB, dec_div in IN by exact Lj. exact IN. }
    split; [|split; [exact ST|split; [exact ND|split; [exact BALL|]]]].
    + intros k Lk. destruct BF as (AL & FI & _). assert (Lk0 : live m k).
      { destruct Lk as [L1 L2]. rewrite AL in L1. destruct (FI k) as [Q _]. rewrite Q in L2. split; assumption. }
      rewrite BB. apply FB0, Lk0.
    + intros e He. destruct (EN e He) as (k & i & ? & ? & ? & ? & _). exists k, i. auto.
Qed.
End Ball.
