(** C20: gradation of the sizes. *)
From Coq Require Import ZArith QArith Qabs Qround Lqa List Bool Lia.
From Verif Require Import CBase Chain BdryProofs OctModel PropsOct2 FracModel ScaleModel GradModel GradProofs.
Import ListNotations.
Open Scope Z_scope.

Lemma dd2_sym p q : (dd2 p q == dd2 q p)%Q. Proof. unfold dd2. ring. Qed.
Lemma dd3_sym p q : (dd3 p q == dd3 q p)%Q. Proof. unfold dd3. rewrite dd2_sym. ring. Qed.

Lemma tri_ok top dd ddr : (forall p q, dd p q == dd q p)%Q -> (forall p q, ddr p q == ddr q p)%Q -> (forall n, 0 <= n -> 2 <= top n) ->
  gdim_ok (mkGd 3 tri_vis tri_mark false top dd ddr).
Proof.
  intros S1 S2 T. constructor; cbn [g_nv g_vis g_mark g_top g_dd g_ddr]; auto.
  - intros i j [E|[E|[E|[]]]]; injection E as <- <-; lia.
  - intros i j Hi Hj N. destruct i as [|[|[|i]]], j as [|[|[|j]]]; try lia; cbn; auto.
  - intros i a b [E|[E|[E|[]]]]; injection E as <- <- <-; lia.
Qed.

Lemma gd2_ok : gdim_ok gd2. Proof. apply tri_ok; try apply dd2_sym. intros; lia. Qed.
Lemma gds_ok : gdim_ok gds. Proof. apply tri_ok; try apply dd2_sym; try apply dd3_sym. intros; lia. Qed.
Lemma gd3_ok : gdim_ok gd3.
Proof.
  constructor; cbn [g_nv g_vis g_mark g_top g_dd g_ddr gd3]; try apply dd3_sym.
  - intros i j H. cbn in H. repeat (destruct H as [E|H]; [injection E as <- <-; lia|]). destruct H.
  - intros i j Hi Hj N. destruct i as [|[|[|[|i]]]], j as [|[|[|[|j]]]]; try lia; cbn; auto 20.
  - intros i a b H. cbn in H. repeat (destruct H as [E|H]; [injection E as <- <- <-; lia|]). destruct H.
  - intros; lia.
Qed.

Definition mmg (d : gdim) : Prop := d = gd2 \/ d = gds \/ d = gd3.
Lemma mmg_ok d : mmg d -> gdim_ok d.
Proof. intros [->|[-> | ->]]; [apply gd2_ok|apply gds_ok|apply gd3_ok]. Qed.

(** The edge [i] of a triangle is the one without its vertex [i]; the edges of a tetrahedron
    are its pairs of vertices in lexicographic order. *)
Lemma mark_tables :
  (forall i a b, In (i, (a, b)) tri_mark -> (i < 3)%nat /\ a <> b /\ a <> i /\ b <> i) /\ map fst tri_mark = [0; 1; 2]%nat /\
  map snd tet_mark = filter (fun x => fst x <? snd x)%nat (list_prod (seq 0 4) (seq 0 4)) /\ map fst tet_mark = seq 0 6.
Proof.
  split; [|repeat split].
  intros i a b [E|[E|[E|[]]]]; injection E as <- <- <-; lia.
Qed.

(** ** The sweeps of the gradation *)

Lemma gradsiz_run d rt hg m base s flg met (I : (Z -> Q) -> Prop) :
  mmg d -> root rt -> (0 <= hg)%Q -> gwf d m -> g_np m < alen s -> g_np m < alen flg -> g_np m < alen met ->
  I (aget met) ->
  (forall h q t hn, gedge d m q t -> ~ onreq d m q -> ~ onreq d m t -> (EPSD <= h q)%Q -> (h q + hg * len d rt m q t < h t)%Q ->
    (hn == h q + hg * len d rt m q t)%Q -> I h -> I (upd h t hn)) ->
  exists met' s' nu, gradsiz d rt hg m base s flg met = Ret (met', s', nu) /\ alen met' = alen met /\ alen s' = alen s /\ I (aget met') /\ 0 <= nu /\
    (forall p, 1 <= p <= g_np m -> (aget s' p = 0 /\ ~ onreq d m p) \/ (aget s' p = g_top d (g_n m) /\ onreq d m p)) /\
    (nu = 0 -> forall q t, gedge d m q t -> ~ onreq d m q -> ~ onreq d m t -> allowed d rt hg m (aget met') q t) /\
    (0 < nu -> 100 < g_np m).
Proof.
  intros Hd RT HG W LS LF LM I0 IS. pose proof (mmg_ok d Hd) as D. pose proof (gw_np d m W) as Hnp. unfold gradsiz.
  destruct (marks_spec d m s D W LS) as (s1 & E1 & L1 & M1). rewrite E1. cbn [bind].
  destruct (@for_range_inv _ (fun i (t : arr Z) => alen t = alen flg /\ forall p, 1 <= p < i -> aget t p = base)
    (fun k flg => wr flg k base) 1 (g_np m) flg) as (flg1 & E2 & L2 & F2).
  - lia.
  - split; [reflexivity|lia].
  - intros i t Hi (Lt & Zt). rewrite wr_ok by lia. eexists. split; [reflexivity|]. split; [exact Lt|]. cbn [aget]. intros p Hp.
    unfold upd. destruct (Z.eqb_spec p i); [reflexivity|]. apply Zt. lia.
  - rewrite E2. cbn [bind].
    assert (S0 : forall q t, gedge d m q t -> aget s1 q = 0 -> ~ onreq d m q).
    { intros q t E Z. destruct (gedge_range d m q t W E) as [R _]. destruct (M1 q R) as [[_ X]|[X _]]; [exact X|].
      pose proof (go_top d D (g_n m) (proj1 (gw_n d m W))). lia. }
    assert (S1 : forall q t, gedge d m q t -> ~ onreq d m q -> aget s1 q = 0).
    { intros q t E N. destruct (gedge_range d m q t W E) as [R _]. destruct (M1 q R) as [[X _]|[_ X]]; [exact X|contradiction]. }
    destruct (sweeps_spec d rt hg m s1 base (alen met) D RT HG W ltac:(lia) LM I) with (n := 99%nat) (b := base) (met := met) (flg := flg1)
      as (met2 & flg2 & nu & E3 & L3 & I3 & N3 & A3 & B3).
    + intros h q t hn E Sq St. apply IS; auto; [eapply S0; eauto|eapply S0; [apply gedge_sym|]; eauto].
    + constructor.
      * reflexivity.
      * lia.
      * intros p Hp. rewrite F2; lia.
      * intros q t E _ _ Fq. destruct (gedge_range d m q t W E) as [R _]. rewrite F2 in Fq; lia.
      * intros p Hp. exists []. split; [constructor; [intros []|constructor]|]. split; [rewrite F2 by lia; cbn; lia|]. intros x [].
      * exact I0.
    + rewrite E3. cbn [bind]. exists met2, s1, nu. split; [reflexivity|]. split; [exact L3|]. split; [exact L1|]. split; [exact I3|]. split; [exact N3|].
      split; [exact M1|]. split; [|intros Z; specialize (B3 Z); cbn in B3; lia].
      intros Z q t E Nq Nt. apply A3; auto; [eapply S1; eauto|eapply S1; [apply gedge_sym|]; eauto].
Qed.

Lemma gradsiz_run_eq d rt hg m base s flg met met' s' nu (I : (Z -> Q) -> Prop) :
  mmg d -> root rt -> (0 <= hg)%Q -> gwf d m -> g_np m < alen s -> g_np m < alen flg -> g_np m < alen met ->
  gradsiz d rt hg m base s flg met = Ret (met', s', nu) ->
  I (aget met) ->
  (forall h q t hn, gedge d m q t -> ~ onreq d m q -> ~ onreq d m t -> (EPSD <= h q)%Q -> (h q + hg * len d rt m q t < h t)%Q ->
    (hn == h q + hg * len d rt m q t)%Q -> I h -> I (upd h t hn)) ->
  I (aget met').
Proof.
  intros Hd RT HG W LS LF LM E I0 IS.
  destruct (gradsiz_run d rt hg m base s flg met I Hd RT HG W LS LF LM I0 IS) as (met2 & s2 & nu2 & E2 & _ & _ & I2 & _).
  rewrite E in E2. injection E2 as <- _ _. exact I2.
Qed.

(** C20: the call succeeds; no size increases; the sizes stay above any lower bound of the
    initial ones; the sizes at the ends of required edges and at vertices of no treated
    element are kept. *)
Theorem gradation_bounds d rt hg m base s flg met :
  mmg d -> root rt -> (0 <= hg)%Q -> gwf d m -> g_np m < alen s -> g_np m < alen flg -> g_np m < alen met ->
  exists met' s' nu, gradsiz d rt hg m base s flg met = Ret (met', s', nu) /\ alen met' = alen met /\ 0 <= nu /\
    (forall p, aget met' p <= aget met p)%Q /\
    (forall c, (forall p, 1 <= p <= g_np m -> (c <= aget met p)%Q) -> forall p, 1 <= p <= g_np m -> (c <= aget met' p)%Q) /\
    (forall p, onreq d m p -> aget met' p = aget met p) /\
    (forall p, (forall q, ~ gedge d m p q) -> aget met' p = aget met p).
Proof.
  intros Hd RT HG W LS LF LM.
  destruct (gradsiz_run d rt hg m base s flg met (fun _ => True) Hd RT HG W LS LF LM Logic.I ltac:(auto)) as (met' & s' & nu & E & L & _ & _ & N & _).
  exists met', s', nu. split; [exact E|]. split; [exact L|]. split; [exact N|].
  assert (G : forall I : (Z -> Q) -> Prop, I (aget met) ->
    (forall h q t hn, gedge d m q t -> ~ onreq d m q -> ~ onreq d m t -> (EPSD <= h q)%Q -> (h q + hg * len d rt m q t < h t)%Q ->
    (hn == h q + hg * len d rt m q t)%Q -> I h -> I (upd h t hn)) -> I (aget met')).
  { intros I. apply (gradsiz_run_eq d rt hg m base s flg met met' s' nu I); assumption. }
  split; [|split; [|split]].
  - apply (G (fun h => forall p, h p <= aget met p)%Q); [intros; apply Qle_refl|]. intros h q t hn _ _ _ _ H Hn IH p.
    apply Qle_trans with (h p); [|apply IH]. unfold upd. destruct (Z.eqb_spec p t) as [->|]; lra.
  - intros c Hc. apply (G (fun h => forall p, 1 <= p <= g_np m -> (c <= h p)%Q)); [exact Hc|]. intros h q t hn E1 _ _ _ H Hn IH p Hp.
    unfold upd. destruct (Z.eqb_spec p t) as [->|]; [|apply IH; exact Hp].
    destruct (gedge_range d m q t W E1) as [Rq _]. specialize (IH q Rq). pose proof (glen_pos d rt hg m RT HG q t). lra.
  - intros p Hp. apply (G (fun h => h p = aget met p)); [reflexivity|]. intros h q t hn _ _ Nt _ _ _ IH. unfold upd.
    destruct (Z.eqb_spec p t) as [->|]; [contradiction|exact IH].
  - intros p Hp. apply (G (fun h => h p = aget met p)); [reflexivity|]. intros h q t hn E1 _ _ _ _ _ IH. unfold upd.
    destruct (Z.eqb_spec p t) as [->|]; [|exact IH]. exfalso. apply (Hp q). apply gedge_sym. exact E1.
Qed.

(** C20: when the sweeps end because nothing changed, no size at the end of an edge exceeds
    what the other end allows. *)
Theorem gradation_graded d rt hg m base s flg met met' s' nu :
  mmg d -> root rt -> (0 <= hg)%Q -> gwf d m -> g_np m < alen s -> g_np m < alen flg -> g_np m < alen met ->
  (forall p, 1 <= p <= g_np m -> (EPSD <= aget met p)%Q) ->
  gradsiz d rt hg m base s flg met = Ret (met', s', nu) -> nu = 0 ->
  forall p q, gedge d m p q -> ~ onreq d m p -> ~ onreq d m q ->
    (Qabs (aget met' p - aget met' q) <= hg * rt (g_dd d (g_pos m p) (g_pos m q)))%Q.
Proof.
  intros Hd RT HG W LS LF LM H0 E Z p q Epq Np Nq. pose proof (mmg_ok d Hd) as D.
  destruct (gradation_bounds d rt hg m base s flg met Hd RT HG W LS LF LM) as (met2 & s2 & nu2 & E2 & _ & _ & _ & LB & _).
  rewrite E in E2. injection E2 as <- <- <-. specialize (LB EPSD H0).
  destruct (gradsiz_run d rt hg m base s flg met (fun _ => True) Hd RT HG W LS LF LM Logic.I ltac:(auto)) as (met2 & s2 & nu2 & E2 & _ & _ & _ & _ & _ & A & _).
  rewrite E in E2. injection E2 as <- <- <-. specialize (A Z).
  destruct (gedge_range d m p q W Epq) as [Rp Rq].
  destruct (A p q Epq Np Nq) as [A1|A1]; [|specialize (LB p Rp); lra].
  destruct (A q p (gedge_sym _ _ _ _ Epq) Nq Np) as [A2|A2]; [|specialize (LB q Rq); lra].
  assert (GG : (hg * len d rt m q p == hg * len d rt m p q)%Q) by (rewrite (len_sym d rt m D RT q p); reflexivity).
  fold (len d rt m p q). apply Qabs_Qle_condition. split; lra.
Qed.

(** C20: the map then obtained is the largest graded map below the initial one; in any case
    every graded map below the initial one is below the result. *)
Theorem gradation_greatest d rt hg m base s flg met met' s' nu g :
  mmg d -> root rt -> (0 <= hg)%Q -> gwf d m -> g_np m < alen s -> g_np m < alen flg -> g_np m < alen met ->
  gradsiz d rt hg m base s flg met = Ret (met', s', nu) ->
  (forall p, g p <= aget met p)%Q ->
  (forall p q, gedge d m p q -> ~ onreq d m p -> ~ onreq d m q -> Qabs (g p - g q) <= hg * rt (g_dd d (g_pos m p) (g_pos m q)))%Q ->
  forall p, (g p <= aget met' p)%Q.
Proof.
  intros Hd RT HG W LS LF LM E G0 GG.
  apply (gradsiz_run_eq d rt hg m base s flg met met' s' nu (fun h => forall p, g p <= h p)%Q); auto.
  intros h q t hn Eqt Nq Nt _ Hlt Hn IH p. unfold upd. destruct (Z.eqb_spec p t) as [->|]; [|apply IH].
  specialize (GG q t Eqt Nq Nt). fold (len d rt m q t) in GG. apply Qabs_Qle_condition in GG. specialize (IH q). lra.
Qed.

(** C20: a size travels along distinct points, so the sweeps end because nothing changed in
    every mesh of at most 100 points. *)
Theorem gradation_converges d rt hg m base s flg met met' s' nu :
  mmg d -> root rt -> (0 <= hg)%Q -> gwf d m -> g_np m < alen s -> g_np m < alen flg -> g_np m < alen met ->
  gradsiz d rt hg m base s flg met = Ret (met', s', nu) -> g_np m <= 100 -> nu = 0.
Proof.
  intros Hd RT HG W LS LF LM E N.
  destruct (gradsiz_run d rt hg m base s flg met (fun _ => True) Hd RT HG W LS LF LM Logic.I ltac:(auto)) as (met2 & s2 & nu2 & E2 & _ & _ & _ & P & _ & _ & A).
  rewrite E in E2. injection E2 as <- <- <-. destruct (Z.eq_dec nu 0) as [|X]; [assumption|]. specialize (A ltac:(lia)). lia.
Qed.

(** ** The sweeps from the required points *)

(** The ends of an edge of a valid element, required or not. *)
Definition vedge (d : gdim) (m : gmesh) (a b : Z) : Prop :=
  exists k i j, valid m k /\ (i < g_nv d)%nat /\ (j < g_nv d)%nat /\ i <> j /\ a = gvx m k i /\ b = gvx m k j.

Definition vpairs (d : gdim) (m : gmesh) : list (Z * Z) := pairs_of d m (fun k => gok (aget (g_elt m) k)).

Lemma sweepr_fold d rt hg m st : gwf d m ->
  sweepr d rt hg m st = foldM (fun ab st => visitr rt hg (g_ddr d) m (fst ab) (snd ab) st) (vpairs d m) st.
Proof.
  intros W. unfold sweepr, vpairs, pairs_of. rewrite for_range_fold, foldM_flat_map. apply foldM_ext. intros k st' Hk. apply in_zrange in Hk.
  rewrite rd_ok by (pose proof (gw_n d m W); lia). cbn [bind]. destruct (gok (aget (g_elt m) k)); cbn [negb]; [|reflexivity].
  rewrite foldM_map. reflexivity.
Qed.

Lemma vpairs_edge d m a b : gdim_ok d -> In (a, b) (vpairs d m) -> vedge d m a b.
Proof.
  intros D H. unfold vpairs, pairs_of in H. apply in_flat_map in H. destruct H as (k & Hk & H). apply in_zrange in Hk.
  destruct (gok (aget (g_elt m) k)) eqn:T; [|destruct H]. apply in_map_iff in H. destruct H as ((i & j) & E & H). injection E as <- <-.
  destruct (go_vis d D i j H) as (A & B & C). exists k, i, j. repeat split; auto; lia.
Qed.

Lemma vedge_pairs d m a b : gdim_ok d -> vedge d m a b -> In (a, b) (vpairs d m) \/ In (b, a) (vpairs d m).
Proof.
  intros D (k & i & j & [Hk T] & Hi & Hj & N & -> & ->).
  unfold vpairs, pairs_of. destruct (go_all d D i j Hi Hj N) as [X|X]; [left|right]; apply in_flat_map; exists k; (split; [apply in_zrange; exact Hk|]);
    rewrite T; apply in_map_iff; [exists (i, j)|exists (j, i)]; auto.
Qed.

Lemma vedge_sym d m a b : vedge d m a b -> vedge d m b a.
Proof. intros (k & i & j & T & Hi & Hj & N & -> & ->). exists k, j, i. repeat split; auto; apply T. Qed.

Lemma vedge_range d m a b : gwf d m -> vedge d m a b -> 1 <= a <= g_np m /\ 1 <= b <= g_np m.
Proof. intros W (k & i & j & T & Hi & Hj & N & -> & ->). split; apply (gw_v d m W); auto. Qed.

Section Req.
  Variables (d : gdim) (rt : Q -> Q) (hg : Q) (m : gmesh) (nm ns : Z).
  Hypothesis D : gdim_ok d.
  Hypothesis RT : root rt.
  Hypothesis HG : (0 <= hg)%Q.
  Hypothesis W : gwf d m.
  Hypothesis LM : g_np m < nm.
  Hypothesis LS : g_np m < ns.

  Definition lenr (a b : Z) : Q := rt (g_ddr d (g_pos m a) (g_pos m b)).

  Lemma lenr_sym a b : (lenr a b == lenr b a)%Q.
  Proof. apply (rt_eq rt RT). apply (go_symr d D). Qed.

  Lemma glenr_pos a b : (0 <= hg * lenr a b)%Q.
  Proof. apply Qmult_le_0_compat; [exact HG|apply (rt_pos rt RT)]. Qed.

  (** The size of the slave [t] is allowed by the master [q]. *)
  Definition near (h : Z -> Q) (q t : Z) : Prop := (Qabs (h q - h t) <= hg * lenr q t \/ h q < EPSD)%Q.

  (** A property of the sizes and marks kept by every update. *)
  Variable I : (Z -> Q) -> (Z -> Z) -> Prop.
  Hypothesis Istep : forall h s q t hn, vedge d m q t -> s t + 2 <= s q ->
    (h q <= hn < h t \/ h t < hn <= h q)%Q -> (Qabs (h q - hn) <= hg * lenr q t)%Q -> I h s -> I (upd h t hn) (upd s t (s q - 1)).

  Definition rst : Type := arr Q * arr Z * Z.

  Lemma visitr_spec a b met s nu : In (a, b) (vpairs d m) -> alen met = nm -> alen s = ns -> I (aget met) (aget s) ->
    exists met' s' nu', visitr rt hg (g_ddr d) m a b (met, s, nu) = Ret (met', s', nu') /\ alen met' = nm /\ alen s' = ns /\ I (aget met') (aget s') /\
      ((nu' = nu /\ met' = met /\ s' = s /\
        forall q t, ((q = a /\ t = b) \/ (q = b /\ t = a)) -> aget s t + 2 <= aget s q -> near (aget met) q t) \/ nu' = nu + 1).
  Proof.
    intros Hab Lm Ls HI. pose proof (vpairs_edge d m a b D Hab) as E. destruct (vedge_range d m a b W E) as [Ra Rb].
    unfold visitr. rewrite !rd_ok by lia. cbn [bind].
    destruct (Z.ltb_spec (Z.abs (aget s a - aget s b)) 2) as [A|A].
    { exists met, s, nu. repeat (split; [auto; fail|]). left. repeat split; auto. intros q t [[-> ->]|[-> ->]] X; lia. }
    assert (LL : (hg * rt (g_ddr d (g_pos m a) (g_pos m b)) == hg * lenr a b /\ hg * rt (g_ddr d (g_pos m a) (g_pos m b)) == hg * lenr b a)%Q).
    { split; [reflexivity|]. rewrite <- lenr_sym. reflexivity. }
    destruct LL as [LL1 LL2]. pose proof (glenr_pos a b) as GP.
    assert (K : forall q t, (q = a /\ t = b) \/ (q = b /\ t = a) -> aget s t + 2 <= aget s q -> (hg * rt (g_ddr d (g_pos m a) (g_pos m b)) == hg * lenr q t)%Q ->
      exists met' s' nu',
       (h1 <- rd met q ;; h2 <- rd met t ;; sm <- rd s q ;;
        if Qltb h1 h2 then
          if Qltb h1 EPSD then Ret (met, s, nu)
          else
            let hn := (h1 + hg * rt (g_ddr d (g_pos m a) (g_pos m b)))%Q in
            if Qle_bool h2 hn then Ret (met, s, nu)
            else met <- wr met t hn ;; s <- wr s t (sm - 1) ;; Ret (met, s, nu + 1)
        else
          let hn := (h1 - hg * rt (g_ddr d (g_pos m a) (g_pos m b)))%Q in
          if Qle_bool hn h2 then Ret (met, s, nu)
          else met <- wr met t hn ;; s <- wr s t (sm - 1) ;; Ret (met, s, nu + 1)) = Ret (met', s', nu') /\ alen met' = nm /\ alen s' = ns /\ I (aget met') (aget s') /\
      ((nu' = nu /\ met' = met /\ s' = s /\ near (aget met) q t) \/ nu' = nu + 1)).
    { intros q t QT Sqt LL.
      assert (Eqt : vedge d m q t) by (destruct QT as [[-> ->]|[-> ->]]; [exact E|apply vedge_sym; exact E]).
      destruct (vedge_range d m q t W Eqt) as [Rq Rt]. pose proof (glenr_pos q t) as GPq. unfold near.
      rewrite !rd_ok by lia. cbn [bind]. cbv zeta. set (L := (hg * rt (g_ddr d (g_pos m a) (g_pos m b)))%Q) in *. clearbody L.
      assert (Same : (Qabs (aget met q - aget met t) <= hg * lenr q t \/ aget met q < EPSD)%Q ->
        exists met' s' nu', Ret (met, s, nu) = Ret (met', s', nu') /\ alen met' = nm /\ alen s' = ns /\ I (aget met') (aget s') /\
         ((nu' = nu /\ met' = met /\ s' = s /\ (Qabs (aget met q - aget met t) <= hg * lenr q t \/ aget met q < EPSD)%Q) \/ nu' = nu + 1)).
      { intros X. exists met, s, nu. repeat (split; [auto; fail|]). left. auto. }
      assert (New : forall hn, (aget met q <= hn < aget met t \/ aget met t < hn <= aget met q)%Q -> (Qabs (aget met q - hn) <= hg * lenr q t)%Q ->
        exists met' s' nu', (met <- wr met t hn ;; s <- wr s t (aget s q - 1) ;; Ret (met, s, nu + 1)) = Ret (met', s', nu') /\ alen met' = nm /\ alen s' = ns /\ I (aget met') (aget s') /\
         ((nu' = nu /\ met' = met /\ s' = s /\ (Qabs (aget met q - aget met t) <= hg * lenr q t \/ aget met q < EPSD)%Q) \/ nu' = nu + 1)).
      { intros hn X X'. rewrite !wr_ok by lia. cbn [bind]. eexists _, _, _. split; [reflexivity|]. cbn [alen aget]. split; [exact Lm|]. split; [exact Ls|].
        split; [|right; reflexivity]. apply Istep; auto. }
      destruct (Qltb_spec (aget met q) (aget met t)) as [[-> H]|[-> H]].
      - destruct (Qltb_spec (aget met q) EPSD) as [[-> H1]|[-> H1]]; [apply Same; right; exact H1|].
        destruct (Qle_bool (aget met t) (aget met q + L)) eqn:B.
        + apply Qle_bool_iff in B. apply Same. left. apply Qabs_Qle_condition. split; lra.
        + apply New; [left; split; [lra|]; apply Qnot_le_lt; intros X; apply Qle_bool_iff in X; congruence|]. apply Qabs_Qle_condition. split; lra.
      - destruct (Qle_bool (aget met q - L) (aget met t)) eqn:B.
        + apply Qle_bool_iff in B. apply Same. left. apply Qabs_Qle_condition. split; lra.
        + apply New; [right; split; [|lra]; apply Qnot_le_lt; intros X; apply Qle_bool_iff in X; congruence|]. apply Qabs_Qle_condition. split; lra. }
    destruct (Z.ltb_spec (aget s b) (aget s a)) as [B|B].
    - cbn [orb c_assert bind]. destruct (K a b (or_introl (conj eq_refl eq_refl)) ltac:(lia) LL1) as (m1 & s1 & n1 & E1 & A1 & A2 & A3 & A4).
      exists m1, s1, n1. split; [exact E1|]. split; [exact A1|]. split; [exact A2|]. split; [exact A3|].
      destruct A4 as [(X1 & X2 & X3 & X4)|X]; [left|right; exact X]. repeat split; auto. intros q t [[-> ->]|[-> ->]] Y; [exact X4|lia].
    - destruct (Z.ltb_spec (aget s a) (aget s b)) as [B'|B']; [|lia].
      cbn [orb c_assert bind]. destruct (K b a (or_intror (conj eq_refl eq_refl)) ltac:(lia) LL2) as (m1 & s1 & n1 & E1 & A1 & A2 & A3 & A4).
      exists m1, s1, n1. split; [exact E1|]. split; [exact A1|]. split; [exact A2|]. split; [exact A3|].
      destruct A4 as [(X1 & X2 & X3 & X4)|X]; [left|right; exact X]. repeat split; auto. intros q t [[-> ->]|[-> ->]] Y; [lia|exact X4].
  Qed.

  Lemma sweepr_spec met s : alen met = nm -> alen s = ns -> I (aget met) (aget s) ->
    exists met' s' nu, sweepr d rt hg m (met, s, 0) = Ret (met', s', nu) /\ alen met' = nm /\ alen s' = ns /\ I (aget met') (aget s') /\ 0 <= nu /\
      (nu = 0 -> forall q t, vedge d m q t -> aget s' t + 2 <= aget s' q -> near (aget met') q t).
  Proof.
    intros Lm Ls HI. rewrite (sweepr_fold d rt hg m (met, s, 0) W).
    destruct (@foldM_inv (Z * Z) rst (fun pre st => alen (fst (fst st)) = nm /\ alen (snd (fst st)) = ns /\ I (aget (fst (fst st))) (aget (snd (fst st))) /\ 0 <= snd st /\
       (snd st = 0 -> forall q t, In (q, t) pre \/ In (t, q) pre -> aget (snd (fst st)) t + 2 <= aget (snd (fst st)) q -> near (aget (fst (fst st))) q t))
      (fun ab st => visitr rt hg (g_ddr d) m (fst ab) (snd ab) st) (vpairs d m) (met, s, 0)) as ([[met' s'] nu] & E & A1 & A2 & A3 & A4 & A5); cbn [fst snd] in *.
    - repeat split; auto; try lia. intros _ q t [[]|[]].
    - intros pre [a b] post [[m1 s1] n1] Ep (A1 & A2 & A3 & A4 & A5). cbn [fst snd] in *.
      assert (Hab : In (a, b) (vpairs d m)) by (rewrite Ep; apply in_elt).
      destruct (visitr_spec a b m1 s1 n1 Hab A1 A2 A3) as (m2 & s2 & n2 & E2 & B1 & B2 & B3 & B4).
      exists (m2, s2, n2). split; [exact E2|]. cbn [fst snd]. split; [exact B1|]. split; [exact B2|]. split; [exact B3|].
      destruct B4 as [(-> & -> & -> & X)| ->]; [|split; [lia|intros Y; lia]]. split; [exact A4|]. intros Y q t Hqt Sqt.
      destruct Hqt as [Hqt|Hqt]; apply in_app_or in Hqt; destruct Hqt as [Hqt|[Hqt|[]]]; try (apply A5; auto; fail); injection Hqt as -> ->; apply X; auto.
    - exists met', s', nu. split; [exact E|]. repeat (split; [assumption|]). intros Z q t Eqt Sqt. apply A5; auto. apply vedge_pairs; assumption.
  Qed.

  Lemma sweepsr_spec n : forall met s nup, alen met = nm -> alen s = ns -> I (aget met) (aget s) ->
    exists met' s' nu nup', sweepsr (S n) d rt hg m met s nup = Ret (met', s', nu, nup') /\ alen met' = nm /\ I (aget met') (aget s') /\ 0 <= nu /\
      (nu = 0 -> forall q t, vedge d m q t -> aget s' t + 2 <= aget s' q -> near (aget met') q t).
  Proof.
    induction n as [|n IH]; intros met s nup Lm Ls HI; destruct (sweepr_spec met s Lm Ls HI) as (m1 & s1 & n1 & E1 & A1 & A2 & A3 & A4 & A5).
    - cbn [sweepsr]. rewrite E1. cbn [bind Nat.eqb negb andb]. eexists _, _, _, _. split; [reflexivity|]. auto.
    - change (sweepsr (S (S n)) d rt hg m met s nup) with (x <- sweepr d rt hg m (met, s, 0) ;; (let (p, nu) := x in let (met, s) := p in
        if 0 <? nu then sweepsr (S n) d rt hg m met s (nup + nu) else Ret (met, s, nu, nup + nu))). rewrite E1. cbn [bind].
      destruct (Z.ltb_spec 0 n1) as [Z|Z].
      + destruct (IH m1 s1 (nup + n1) A1 A2 A3) as (m2 & s2 & n2 & p2 & E2 & B). exists m2, s2, n2, p2. split; [exact E2|]. exact B.
      + eexists _, _, _, _. split; [reflexivity|]. auto.
  Qed.
End Req.

(** C20 for the required points: the whole sequence of the two gradations succeeds; the
    sizes at the ends of required edges are kept; the sizes stay between any bounds of the
    initial ones. *)
Theorem required_bounds d rt hg hgr m base s flg met :
  mmg d -> root rt -> (~ hg == 0)%Q -> gwf d m -> g_np m < alen s -> g_np m < alen flg -> g_np m < alen met ->
  exists met', gradation d rt hg hgr m base s flg met = Ret met' /\
    (forall p, 1 <= p <= g_np m -> onreq d m p -> aget met' p = aget met p) /\
    (forall c C, (forall p, 1 <= p <= g_np m -> (c <= aget met p <= C)%Q) -> forall p, 1 <= p <= g_np m -> (c <= aget met' p <= C)%Q).
Proof.
  intros Hd RT HG W LS LF LM. pose proof (mmg_ok d Hd) as D. pose proof (go_top d D (g_n m) (proj1 (gw_n d m W))) as TOP. unfold gradation.
  assert (Req : forall s1 met1, alen s1 = alen s -> alen met1 = alen met ->
    (forall p, 1 <= p <= g_np m -> (aget s1 p = 0 /\ ~ onreq d m p) \/ (aget s1 p = g_top d (g_n m) /\ onreq d m p)) ->
    (forall p, 1 <= p <= g_np m -> onreq d m p -> aget met1 p = aget met p) ->
    (forall c C, (forall p, 1 <= p <= g_np m -> (c <= aget met p <= C)%Q) -> forall p, 1 <= p <= g_np m -> (c <= aget met1 p <= C)%Q) ->
    (0 < hgr)%Q ->
    exists met2 s2 nu nup, sweepsr 100 d rt hgr m met1 s1 0 = Ret (met2, s2, nu, nup) /\
      (forall p, 1 <= p <= g_np m -> onreq d m p -> aget met2 p = aget met p) /\
      (forall c C, (forall p, 1 <= p <= g_np m -> (c <= aget met p <= C)%Q) -> forall p, 1 <= p <= g_np m -> (c <= aget met2 p <= C)%Q)).
  { intros s1 met1 L1 L2 M1 K1 B1 Hr.
    destruct (sweepsr_spec d rt hgr m (alen met) (alen s) D RT (Qlt_le_weak _ _ Hr) W LM LS
      (fun h t => (forall p, 1 <= p <= g_np m -> t p <= g_top d (g_n m) /\ (onreq d m p -> t p = g_top d (g_n m) /\ h p = aget met p)) /\
        (forall c C, (forall p, 1 <= p <= g_np m -> (c <= aget met p <= C)%Q) -> forall p, 1 <= p <= g_np m -> (c <= h p <= C)%Q))) with (n := 99%nat) (met := met1) (s := s1) (nup := 0)
      as (met2 & s2 & nu & nup & E2 & _ & (A1 & A2) & _); auto.
    - intros h t q u hn Equ Squ Hn _ [I1 I2]. destruct (vedge_range d m q u W Equ) as [Rq Ru]. split.
      + intros p Hp. unfold upd. destruct (Z.eqb_spec p u) as [->|N]; [|apply I1; exact Hp].
        destruct (I1 q Rq) as [Tq _]. split; [lia|]. intros X. destruct (I1 u Ru) as [_ Y]. destruct (Y X) as [Y1 _]. lia.
      + intros c C Hc p Hp. unfold upd. destruct (Z.eqb_spec p u) as [->|N]; [|apply (I2 c C Hc p Hp)].
        pose proof (I2 c C Hc q Rq). pose proof (I2 c C Hc u Ru). lra.
    - split; [|exact B1]. intros p Hp. destruct (M1 p Hp) as [[X1 X2]|[X1 X2]]; (split; [lia|]); intros Y; [contradiction|]. split; [exact X1|apply K1; assumption].
    - exists met2, s2, nu, nup. split; [exact E2|]. split; [|exact A2]. intros p Hp X. apply (A1 p Hp). exact X. }
  destruct (Qltb_spec 0 hg) as [[-> H]|[-> H]].
  - destruct (gradsiz_run d rt hg m base s flg met (fun h => (forall p, onreq d m p -> h p = aget met p) /\
        (forall c C, (forall p, 1 <= p <= g_np m -> (c <= aget met p <= C)%Q) -> forall p, 1 <= p <= g_np m -> (c <= h p <= C)%Q)) Hd RT (Qlt_le_weak _ _ H) W LS LF LM)
      as (met1 & s1 & nu & E1 & L1 & L2 & [I1 I2] & _ & M1 & _).
    + split; auto.
    + intros h q t hn E _ Nt Hq Hlt Hn [I1 I2]. destruct (gedge_range d m q t W E) as [Rq Rt]. split.
      * intros p Hp. unfold upd. destruct (Z.eqb_spec p t) as [->|]; [contradiction|apply I1; exact Hp].
      * intros c C Hc p Hp. unfold upd. destruct (Z.eqb_spec p t) as [->|N]; [|apply (I2 c C Hc p Hp)].
        pose proof (I2 c C Hc q Rq). pose proof (I2 c C Hc t Rt). pose proof (glen_pos d rt hg m RT (Qlt_le_weak _ _ H) q t). lra.
    + rewrite E1. cbn [bind]. destruct (Qltb_spec 0 hgr) as [[-> Hr]|[-> Hr]].
      * unfold gradsizreq. destruct (Qltb_spec hg 0) as [[-> Hx]|[-> Hx]]; [lra|]. cbn [bind].
        destruct (Req s1 met1 L2 L1 M1 ltac:(auto) I2 Hr) as (met2 & s2 & nu2 & nup & E2 & A). rewrite E2. cbn [bind]. eauto.
      * exists met1. auto.
  - cbn [bind]. destruct (Qltb_spec 0 hgr) as [[-> Hr]|[-> Hr]].
    + unfold gradsizreq. assert (H' : (hg < 0)%Q) by (destruct (Q_dec hg 0) as [[X|X]|X]; [exact X|lra|contradiction]).
      rewrite (proj2 (Qltb_true _ _) H'). destruct (marks_spec d m s D W LS) as (s1 & E1 & L1 & M1). rewrite E1. cbn [bind].
      destruct (Req s1 met L1 eq_refl M1 ltac:(auto) ltac:(auto) Hr) as (met2 & s2 & nu2 & nup & E2 & A). rewrite E2. cbn [bind]. eauto.
    + exists met. auto.
Qed.

(** C20: when the sweeps from the required points end because nothing changed, each
    neighbour of such a point is graded with respect to one of them (to this one if it has
    no other). *)
Theorem required_neighbours d rt hg hgr m s met met' s' nu nup :
  mmg d -> root rt -> (hg < 0)%Q -> (0 <= hgr)%Q -> gwf d m -> g_np m < alen s -> g_np m < alen met ->
  (forall p, 1 <= p <= g_np m -> (EPSD <= aget met p)%Q) ->
  gradsizreq d rt hg hgr m s met = Ret (met', s', nu, nup) -> nu = 0 ->
  forall p q, vedge d m p q -> onreq d m p -> ~ onreq d m q ->
    exists p', vedge d m p' q /\ onreq d m p' /\ (Qabs (aget met' p' - aget met' q) <= hgr * rt (g_ddr d (g_pos m p') (g_pos m q)))%Q.
Proof.
  intros Hd RT HG HR W LS LM EP E N0 p q Epq Op Oq. pose proof (mmg_ok d Hd) as D. pose proof (go_top d D (g_n m) (proj1 (gw_n d m W))) as TOP.
  revert E. unfold gradsizreq. rewrite (proj2 (Qltb_true _ _) HG). destruct (marks_spec d m s D W LS) as (s1 & E1 & L1 & M1). rewrite E1. cbn [bind]. intros E.
  set (T := g_top d (g_n m)) in *.
  set (I := fun (h : Z -> Q) (t : Z -> Z) =>
    (forall p, 1 <= p <= g_np m -> t p <= T /\ (onreq d m p <-> t p = T) /\ (onreq d m p -> h p = aget met p)) /\
    (forall p, 1 <= p <= g_np m -> t p = T - 1 -> exists p', vedge d m p' p /\ onreq d m p' /\ (Qabs (h p' - h p) <= hgr * lenr d rt m p' p)%Q)).
  destruct (sweepsr_spec d rt hgr m (alen met) (alen s) D RT HR W LM LS I) with (n := 99%nat) (met := met) (s := s1) (nup := 0)
    as (met2 & s2 & nu2 & nup2 & E2 & _ & [A1 A2] & _ & A3); auto.
  - intros h t a b hn Eab Sab Hn Hd' [I1 I2]. destruct (vedge_range d m a b W Eab) as [Ra Rb].
    destruct (I1 a Ra) as (Ta & Ta' & Ha). destruct (I1 b Rb) as (Tb & Tb' & Hb).
    assert (Nb : ~ onreq d m b) by (intros X; apply Tb' in X; lia). split.
    + intros x Hx. unfold upd. destruct (Z.eqb_spec x b) as [->|N]; [|apply I1; exact Hx].
      split; [lia|]. split; [split; [contradiction|intros X; lia]|contradiction].
    + intros x Hx. destruct (Z.eq_dec x b) as [->|N].
      * rewrite upd_same. intros X. exists a. assert (Oa : onreq d m a) by (apply Ta'; lia). split; [exact Eab|]. split; [exact Oa|].
        rewrite upd_same, upd_other by (intros ->; contradiction). exact Hd'.
      * rewrite upd_other by exact N. intros X. destruct (I2 x Hx X) as (p' & B1 & B2 & B3). exists p'. split; [exact B1|]. split; [exact B2|].
        rewrite !upd_other by (try exact N; intros ->; contradiction). exact B3.
  - split.
    + intros x Hx. destruct (M1 x Hx) as [[X1 X2]|[X1 X2]].
      * split; [lia|]. split; [split; [contradiction|lia]|contradiction].
      * split; [lia|]. split; [tauto|reflexivity].
    + intros x Hx X. destruct (M1 x Hx) as [[X1 X2]|[X1 X2]]; lia.
  - rewrite E in E2. injection E2 as <- <- <- <-. destruct (vedge_range d m p q W Epq) as [Rp Rq].
    destruct (A1 p Rp) as (Tp & Tp' & Hp). destruct (A1 q Rq) as (Tq & Tq' & _).
    destruct (Z.eq_dec (aget s' q) (T - 1)) as [X|X]; [apply A2; assumption|].
    exists p. split; [exact Epq|]. split; [exact Op|]. destruct (A3 N0 p q Epq) as [Y|Y].
    + apply Tp' in Op. assert (aget s' q <> T) by (intros Y; apply Tq' in Y; contradiction). lia.
    + exact Y.
    + rewrite (Hp Op) in Y. specialize (EP p Rp). lra.
Qed.

(** ** Concrete meshes *)

(** A root that is exact on squares of integers. *)
Definition isq (x : Q) : Q := inject_Z (Z.sqrt (Qfloor x)).
Lemma isq_root : root isq.
Proof.
  constructor.
  - intros x. unfold isq. change 0%Q with (inject_Z 0). rewrite <- Zle_Qle. apply Z.sqrt_nonneg.
  - intros x y E. unfold isq. rewrite (Qfloor_comp x y E). reflexivity.
Qed.

Definition validb (m : gmesh) (k : Z) : bool := (1 <=? k) && (k <=? g_n m) && gok (aget (g_elt m) k).
Definition gwfb (d : gdim) (m : gmesh) : bool :=
  (0 <=? g_n m) && (g_n m <? alen (g_elt m)) && (0 <=? g_np m) &&
  forallb (fun k => negb (validb m k) || forallb (fun i => (1 <=? gvx m k i) && (gvx m k i <=? g_np m)) (seq 0 (g_nv d))) (zrange 1 (g_n m)).
Lemma gwfb_ok d m : gwfb d m = true -> gwf d m.
Proof.
  unfold gwfb. rewrite !andb_true_iff, forallb_forall, !Z.leb_le, Z.ltb_lt. intros [[[A B] C] H]. constructor; auto.
  intros k i [Hk Ok] Hi. specialize (H k ltac:(apply in_zrange; exact Hk)). cbv beta in H. unfold validb in H. rewrite Ok in H.
  apply orb_true_iff in H. destruct H as [H|H].
  - apply negb_true_iff in H. rewrite andb_true_r in H. apply andb_false_iff in H. rewrite !Z.leb_gt in H. lia.
  - rewrite forallb_forall in H. specialize (H i ltac:(apply in_seq; lia)). cbv beta in H. rewrite andb_true_iff, !Z.leb_le in H. exact H.
Qed.

(** Triangle with its required edges. *)
Definition tq (a b c : Z) (r0 r1 r2 : bool) : gel := mkG (fun i => nth i [a; b; c] 0) (fun i => nth i [r0; r1; r2] false) true false.
Definition tq0 : gel := mkG (fun _ => 0) (fun _ => false) false false.

(** A strip with sides 5, 5 and 6: the vertices are at abscissas 0, 3, 6, ... alternately at
    the ordinates 0 and 4.  The elements are numbered from the far end. *)
Definition strip_elt (n k : Z) : gel :=
  let a := n - k + 1 in if Z.odd a then tq a (a + 2) (a + 1) false false false else tq a (a + 1) (a + 2) false false false.
Definition gstrip (n : Z) : gmesh :=
  mkGm n (n + 2) (mkArr (n + 1) (fun k => if k <=? 0 then tq0 else strip_elt n k))
    (fun p => mkV (inject_Z (3 * (p - 1))) (if Z.odd p then 0 else 4) 0).
(** A small size at the first vertex. *)
Definition gstrip_met (n : Z) : arr Q := mkArr (n + 3) (fun p => if p =? 1 then 1 else 10000)%Q.

(** Four triangles: the hypotheses hold and the sizes 1, 6, 7, 12, 13, 18 are found. *)
Example gstrip_hyps : gwf gd2 (gstrip 4) /\ g_np (gstrip 4) = 6 /\ forall p, 1 <= p <= 6 -> (EPSD <= aget (gstrip_met 4) p)%Q.
Proof.
  split; [apply gwfb_ok; vm_compute; reflexivity|]. split; [reflexivity|]. intros p _. unfold gstrip_met. cbn [aget].
  destruct (p =? 1); apply Qle_bool_iff; vm_compute; reflexivity.
Qed.
Example gstrip_graded : match gradsiz gd2 isq 1 (gstrip 4) 0 (acalloc 7 0) (acalloc 7 0) (gstrip_met 4) with
  | Ret (met, _, nu) => (nu =? 0) && forallb (fun x => Qeq_bool (aget met (fst x)) (snd x)) (combine [1; 2; 3; 4; 5; 6] [1; 6; 7; 12; 13; 18]%Q)
  | Stuck => false end = true.
Proof. vm_compute. reflexivity. Qed.

(** ** Cases where the sizes are not graded *)

(** A strip of 204 triangles: after the 100 sweeps the result is not graded. *)
Theorem long_strip_refuted :
  exists m s flg met met' s' nu p q, gwf gd2 m /\ g_np m < alen s /\ g_np m < alen flg /\ g_np m < alen met /\
    (forall p, (EPSD <= aget met p)%Q) /\ gradsiz gd2 isq 1 m 0 s flg met = Ret (met', s', nu) /\
    gedge gd2 m p q /\ (1 * isq (dd2 (g_pos m p) (g_pos m q)) < Qabs (aget met' p - aget met' q))%Q.
Proof.
  assert (H : match gradsiz gd2 isq 1 (gstrip 204) 0 (acalloc 207 0) (acalloc 207 0) (gstrip_met 204) with
    | Ret (met, _, _) => Qltb (1 * isq (dd2 (g_pos (gstrip 204) 201) (g_pos (gstrip 204) 203)))%Q (Qabs (aget met 201 - aget met 203))%Q | Stuck => false end = true)
    by (vm_compute; reflexivity).
  destruct (gradsiz gd2 isq 1 (gstrip 204) 0 (acalloc 207 0) (acalloc 207 0) (gstrip_met 204)) as [[[met' s'] nu]|] eqn:E; [|discriminate H].
  exists (gstrip 204), (acalloc 207 0), (acalloc 207 0), (gstrip_met 204), met', s', nu, 201, 203.
  split; [apply gwfb_ok; vm_compute; reflexivity|]. split; [reflexivity|]. split; [reflexivity|]. split; [reflexivity|].
  split; [intros p; unfold gstrip_met; cbn [aget]; destruct (p =? 1); apply Qle_bool_iff; vm_compute; reflexivity|].
  split; [exact E|]. split; [|apply Qltb_true; exact H].
  exists 4, 0%nat, 1%nat. split; [split; [split; [cbn; lia|reflexivity]|intros X; discriminate X]|]. (split; [cbn; lia|]). (split; [cbn; lia|]). (split; [discriminate|]). split; reflexivity.
Qed.

(** Vertex 5 has two required edges as opposite sides, with sizes 1 and 10. *)
Definition cross4 : gmesh :=
  mkGm 4 5 (aof tq0 [tq 1 2 5 false false true; tq 2 3 5 false false false; tq 3 4 5 false false true; tq 4 1 5 false false false])
    (fun p => match p with 1 => mkV (-3) (-4) 0 | 2 => mkV 3 (-4) 0 | 3 => mkV 3 4 0 | 4 => mkV (-3) 4 0 | _ => mkV 0 0 0 end).
Definition cross_met : arr Q := aof 0%Q [1; 1; 10; 10; 5]%Q.

(** The gradation from required edges stops at the first one that reaches a vertex. *)
Theorem required_pair_refuted :
  exists m s flg met met' p q, gwf gd2 m /\ g_np m < alen s /\ g_np m < alen flg /\ g_np m < alen met /\
    gradation gd2 isq (1 # 10) (1 # 10) m 0 s flg met = Ret met' /\
    gedge gd2 m p q /\ ((1 # 10) * isq (dd2 (g_pos m p) (g_pos m q)) < Qabs (aget met' p - aget met' q))%Q.
Proof.
  assert (H : match gradation gd2 isq (1 # 10) (1 # 10) cross4 0 (acalloc 6 0) (acalloc 6 0) cross_met with
    | Ret met => Qltb ((1 # 10) * isq (dd2 (g_pos cross4 3) (g_pos cross4 5)))%Q (Qabs (aget met 3 - aget met 5))%Q | Stuck => false end = true)
    by (vm_compute; reflexivity).
  destruct (gradation gd2 isq (1 # 10) (1 # 10) cross4 0 (acalloc 6 0) (acalloc 6 0) cross_met) as [met'|] eqn:E; [|discriminate H].
  exists cross4, (acalloc 6 0), (acalloc 6 0), cross_met, met', 3, 5.
  split; [apply gwfb_ok; vm_compute; reflexivity|]. split; [reflexivity|]. split; [reflexivity|]. split; [reflexivity|].
  split; [exact E|]. split; [|apply Qltb_true; exact H].
  exists 3, 0%nat, 2%nat. split; [split; [split; [cbn; lia|reflexivity]|intros X; discriminate X]|]. (split; [cbn; lia|]). (split; [cbn; lia|]). (split; [discriminate|]). split; reflexivity.
Qed.

(** The hypotheses of [required_neighbours] hold there. *)
Example cross_hyps : gwf gd2 cross4 /\ onreq gd2 cross4 3 /\ vedge gd2 cross4 3 5 /\ ~ onreq gd2 cross4 5 /\
  (forall p, 1 <= p <= 5 -> (EPSD <= aget cross_met p)%Q) /\
  match gradsizreq gd2 isq (-1) (1 # 10) cross4 (acalloc 6 0) cross_met with Ret (_, _, nu, _) => nu = 0 | Stuck => False end.
Proof.
  split; [apply gwfb_ok; vm_compute; reflexivity|].
  split; [exists 3, 2%nat, 0%nat, 1%nat; split; [split; [cbn; lia|reflexivity]|]; split; [cbn; tauto|]; split; [reflexivity|left; reflexivity]|].
  split; [exists 3, 0%nat, 2%nat; split; [split; [cbn; lia|reflexivity]|]; cbn; repeat split; lia|].
  split.
  - intros (k & i & a & b & [Hk _] & Hm & Ht & Hp). cbn in Hk, Hm. assert (K : k = 1 \/ k = 2 \/ k = 3 \/ k = 4) by lia.
    destruct K as [->|[->|[->| ->]]]; destruct Hm as [Hm|[Hm|[Hm|[]]]]; injection Hm as <- <- <-; vm_compute in Ht, Hp; try discriminate Ht; destruct Hp as [Hp|Hp]; discriminate Hp.
  - split; [|vm_compute; reflexivity]. intros p Hp. assert (K : p = 1 \/ p = 2 \/ p = 3 \/ p = 4 \/ p = 5) by lia.
    destruct K as [->|[->|[->|[->| ->]]]]; apply Qle_bool_iff; vm_compute; reflexivity.
Qed.

(** A required edge increases the size of a neighbour. *)
Definition one : gmesh :=
  mkGm 1 3 (aof tq0 [tq 1 2 3 false false true]) (fun p => match p with 1 => mkV 0 0 0 | 2 => mkV 0 4 0 | _ => mkV 0 0 3 end).

Lemma one_wf d : g_nv d = 3%nat -> gwf d one.
Proof. intros H. apply gwfb_ok. unfold gwfb. rewrite H. vm_compute. reflexivity. Qed.

Theorem required_increase_refuted :
  exists m s flg met met' p, gwf gds m /\ g_np m < alen s /\ g_np m < alen flg /\ g_np m < alen met /\
    gradation gds isq (1 # 10) (1 # 10) m 0 s flg met = Ret met' /\ (aget met p < aget met' p)%Q.
Proof.
  assert (H : match gradation gds isq (1 # 10) (1 # 10) one 0 (acalloc 4 0) (acalloc 4 0) (aof 0 [10; 10; 1])%Q with
    | Ret met => Qltb 1 (aget met 3) | Stuck => false end = true) by (vm_compute; reflexivity).
  destruct (gradation gds isq (1 # 10) (1 # 10) one 0 (acalloc 4 0) (acalloc 4 0) (aof 0 [10; 10; 1])%Q) as [met'|] eqn:E; [|discriminate H].
  exists one, (acalloc 4 0), (acalloc 4 0), (aof 0 [10; 10; 1])%Q, met', 3.
  split; [apply one_wf; reflexivity|]. split; [reflexivity|]. split; [reflexivity|]. split; [reflexivity|].
  split; [exact E|]. apply Qltb_true. exact H.
Qed.

(** With a gradation of 1 ([hgrad = log 1 = 0]) neither function marks the required points:
    the marks left by the computation of the sizes are used and the size at the end of a
    required edge changes. *)
Theorem unmarked_refuted :
  exists m s flg met met' p, gwf gd2 m /\ g_np m < alen s /\ g_np m < alen flg /\ g_np m < alen met /\
    gradation gd2 isq 0 (1 # 10) m 0 s flg met = Ret met' /\ onreq gd2 m p /\ ~ (aget met' p == aget met p)%Q.
Proof.
  assert (H : match gradation gd2 isq 0 (1 # 10) one 0 (aof 0 [1; 3; 0]) (acalloc 4 0) (aof 0 [1; 10; 10])%Q with
    | Ret met => negb (Qeq_bool (aget met 1) 1) | Stuck => false end = true) by (vm_compute; reflexivity).
  destruct (gradation gd2 isq 0 (1 # 10) one 0 (aof 0 [1; 3; 0]) (acalloc 4 0) (aof 0 [1; 10; 10])%Q) as [met'|] eqn:E; [|discriminate H].
  exists one, (aof 0 [1; 3; 0]), (acalloc 4 0), (aof 0 [1; 10; 10])%Q, met', 1.
  split; [apply one_wf; reflexivity|]. split; [reflexivity|]. split; [reflexivity|]. split; [reflexivity|].
  split; [exact E|]. split.
  - exists 1, 2%nat, 0%nat, 1%nat. split; [split; [cbn; lia|reflexivity]|]. split; [cbn; tauto|]. split; [reflexivity|left; reflexivity].
  - intros X. apply Qeq_bool_iff in X. change (aget (aof 0 [1; 10; 10])%Q 1) with 1%Q in X. rewrite X in H. discriminate H.
Qed.

(** Mmgs: the gradation from required edges measures the lengths in the plane z = 0; sizes
    that are graded change. *)
Theorem surface_length_refuted :
  exists m s flg met met' p, gwf gds m /\ g_np m < alen s /\ g_np m < alen flg /\ g_np m < alen met /\
    (forall p q, gedge gds m p q -> (Qabs (aget met p - aget met q) <= (1 # 10) * isq (dd3 (g_pos m p) (g_pos m q)))%Q) /\
    gradation gds isq (1 # 10) (1 # 10) m 0 s flg met = Ret met' /\ ~ (aget met' p == aget met p)%Q.
Proof.
  assert (H : match gradation gds isq (1 # 10) (1 # 10) one 0 (acalloc 4 0) (acalloc 4 0) (aof 0 [1; 1; 5 # 4])%Q with
    | Ret met => negb (Qeq_bool (aget met 3) (5 # 4)) | Stuck => false end = true) by (vm_compute; reflexivity).
  destruct (gradation gds isq (1 # 10) (1 # 10) one 0 (acalloc 4 0) (acalloc 4 0) (aof 0 [1; 1; 5 # 4])%Q) as [met'|] eqn:E; [|discriminate H].
  exists one, (acalloc 4 0), (acalloc 4 0), (aof 0 [1; 1; 5 # 4])%Q, met', 3.
  split; [apply one_wf; reflexivity|]. split; [reflexivity|]. split; [reflexivity|]. split; [reflexivity|].
  split; [|split; [exact E|intros X; apply Qeq_bool_iff in X; change (aget (aof 0 [1; 1; 5 # 4])%Q 3) with (5 # 4) in X; rewrite X in H; discriminate H]].
  intros p q (k & i & j & [[Hk _] _] & Hi & Hj & N & -> & ->). cbn in Hk, Hi, Hj. assert (k = 1) by lia. subst k.
  destruct i as [|[|[|i]]], j as [|[|[|j]]]; try lia; apply Qle_bool_iff; vm_compute; reflexivity.
Qed.

Print Assumptions mark_tables.
Print Assumptions gradation_bounds.
Print Assumptions gradation_graded.
Print Assumptions gradation_greatest.
Print Assumptions gradation_converges.
Print Assumptions required_bounds.
Print Assumptions required_neighbours.
Print Assumptions long_strip_refuted.
Print Assumptions required_pair_refuted.
Print Assumptions required_increase_refuted.
Print Assumptions unmarked_refuted.
Print Assumptions surface_length_refuted.
