(** [MMG5_settag] and [MMG5_deltag] change every tetrahedron of the shell of an edge, once. *)
From Coq Require Import ZArith List Lia Bool.
From Verif Require Import CBase Tet3Model Tet3Spec Tet3Proofs Walk Tet3Shell Tet3Turn Tet3Coquil.
Import ListNotations.
Open Scope Z_scope.

(** No boundary tetrahedron belongs to two tetrahedra. *)
Definition xt_own (m : mesh) : Prop :=
  forall k l, live m k -> live m l -> qxt (aget (m_tet m) k) = qxt (aget (m_tet m) l) -> qxt (aget (m_tet m) k) <> 0 -> k = l.

Section Tag.
Variable F : Z -> xtet -> xtet.
Variable m : mesh.
Hypothesis T : tables_ok m.
Hypothesis VO : vertices_ok m.
Hypothesis A : adjacent m.
Hypothesis X : xt_ok m.
Hypothesis XO : xt_own m.
Variable p q : Z.
Hypothesis PQ : p <> q.

Notation V := (Vs m p q).
Notation rvs := (rv m p q).
Notation stps := (stp m p q).
Notation pathS := (path state stps).
Notation xk k := (qxt (aget (m_tet m) k)).
Notation ek k := (findEdge (aget (m_tet m) k) p q).

(** Only boundary tetrahedra differ. *)
Definition but_xt (m1 m2 : mesh) : Prop :=
  m2 = p_xts m1 (m_xt m2) /\ alen (m_xt m2) = alen (m_xt m1).

(** The boundary tetrahedra of [S] are changed, the others are not. *)
Definition upd_set (m1 m2 : mesh) (S : list Z) : Prop :=
  but_xt m1 m2 /\
  (forall k, In k S -> xk k <> 0 -> aget (m_xt m2) (xk k) = F (ek k) (aget (m_xt m1) (xk k))) /\
  (forall x, (forall k, In k S -> xk k = x -> x = 0) -> aget (m_xt m2) x = aget (m_xt m1) x).

Lemma but_xt_refl m1 : but_xt m1 m1.
Proof. split; [destruct m1|]; reflexivity. Qed.
Lemma but_xt_trans m1 m2 m3 : but_xt m1 m2 -> but_xt m2 m3 -> but_xt m1 m3.
Proof.
  intros [E1 L1] [E2 L2]. split; [|congruence]. rewrite E2. rewrite E1. reflexivity.
Qed.
Lemma but_xt_view m2 : but_xt m m2 -> m_tet m2 = m_tet m /\ m_adj m2 = m_adj m /\ m_nemax m2 = m_nemax m.
Proof. intros [-> _]. auto. Qed.

Lemma upd_nil m1 : upd_set m1 m1 [].
Proof. split; [apply but_xt_refl|]. split; [intros k []|reflexivity]. Qed.

Lemma upd_app m1 m2 m3 S1 S2 : upd_set m1 m2 S1 -> upd_set m2 m3 S2 -> (forall k, In k (S1 ++ S2) -> live m k) ->
  (forall k, In k S1 -> ~ In k S2) -> upd_set m1 m3 (S1 ++ S2).
Proof.
  intros (B1 & U1 & N1) (B2 & U2 & N2) LV D. split; [apply (but_xt_trans m1 m2 m3 B1 B2)|]. split.
  - intros k I NZ. pose proof (LV k I) as Lk. apply in_app_or in I. destruct I as [I|I].
    + rewrite N2, (U1 k I NZ); [reflexivity|]. intros l Il El. exfalso. assert (k = l) by (apply XO; auto; apply LV, in_or_app; auto). subst l. apply (D k I Il).
    + rewrite (U2 k I NZ), N1; [reflexivity|]. intros l Il El. exfalso. assert (l = k) by (apply XO; auto; [apply LV, in_or_app; auto|congruence]). subst l. apply (D k Il I).
  - intros x H. rewrite N2, N1; [reflexivity| |]; intros k I; apply H, in_or_app; auto.
Qed.

Lemma on_x_ok m1 k : but_xt m m1 -> live m k -> exists m2, on_x m1 (aget (m_tet m) k) (F (ek k)) = Ret m2 /\ upd_set m1 m2 [k].
Proof.
  intros B L. unfold on_x. destruct (Z.eqb_spec (xk k) 0) as [Z0|NZ].
  - exists m1. split; [reflexivity|]. split; [apply but_xt_refl|]. split; [intros l [<-|[]] ?; contradiction|reflexivity].
  - pose proof (X k L) as HX. destruct B as [_ LB]. unfold get_x. rewrite rd_ok by (rewrite LB; exact HX). cbn [bind].
    unfold set_x. rewrite wr_ok by (rewrite LB; exact HX). cbn [bind]. eexists. split; [reflexivity|]. split; [|split].
    + split; reflexivity.
    + intros l [<-|[]] _. cbn. rewrite upd_same. reflexivity.
    + intros x H. cbn. rewrite upd_other; [reflexivity|]. intros ->. apply NZ, (H k); [left|]; reflexivity.
Qed.

Lemma shell_dir_ok start fuel : forall s m1, V s -> but_xt m m1 ->
  (forall us, pathS s us -> ~ In start (map fst us) -> (length us <= fuel)%nat) ->
  (forall us, pathS s us -> ~ In start (map fst us) -> NoDup (map fst us)) ->
  exists ts m2, pathS s ts /\ ~ In start (map fst ts) /\ upd_set m1 m2 (map fst ts) /\
    let u := last (s :: ts) s in
    shell_dir F fuel m1 start p q (nxt_el m s) (nxt_pv m p q s) = Ret (nxt_el m u, m2) /\ (nxt_el m u = 0 \/ nxt_el m u = start).
Proof.
  induction fuel as [|fuel IH]; intros s m1 H B LF ND; cbn [shell_dir].
  - exists [], m1. split; [constructor|]. split; [intros []|]. split; [apply upd_nil|]. cbn [last]. cbv zeta.
    destruct (next_el m VO A p q PQ s H) as [[E0 EN]|(t & Et & Ef & E0 & EV)].
    + rewrite E0. cbn [Z.eqb orb]. auto.
    + destruct (Z.eqb_spec (nxt_el m s) start) as [ES|NS]; [rewrite orb_true_r; auto|].
      exfalso. specialize (LF [t]). cbn [length map] in LF. assert (1 <= 0)%nat; [|lia]. apply LF; [econstructor; [exact Et|constructor]|]. intros [E|[]]. congruence.
  - destruct (next_el m VO A p q PQ s H) as [[E0 EN]|(t & Et & Ef & E0 & EV)].
    + exists [], m1. split; [constructor|]. split; [intros []|]. split; [apply upd_nil|]. cbn [last]. cbv zeta. rewrite E0. cbn [Z.eqb orb]. auto.
    + destruct (Z.eqb_spec (nxt_el m s) start) as [ES|NS].
      { exists [], m1. split; [constructor|]. split; [intros []|]. split; [apply upd_nil|]. cbn [last]. cbv zeta. rewrite orb_true_r. auto. }
      rewrite (proj2 (Z.eqb_neq _ _) E0). cbn [orb].
      pose proof (V_step m VO A p q PQ s t H Et) as VT. pose proof VT as (Lt & _ & _ & Lf & _). rewrite <- Ef.
      destruct (but_xt_view m1 B) as (ET & EA & _).
      assert (GT : get_t m1 (fst t) = Ret (aget (m_tet m) (fst t))) by (unfold get_t; rewrite ET; apply get_t_ok, live_intab; assumption).
      rewrite GT. cbn [bind]. destruct (turn_idx m VO p q PQ t VT) as (EI & I1 & I2). cbv zeta in I1, I2. rewrite EV in I1, I2. cbv zeta.
      destruct (on_x_ok m1 (fst t) B Lt) as (m2 & O & U2). set (i := ek (fst t)) in *.
      destruct (Z.eqb_spec i 6) as [I6|_]; [destruct EI; lia|]. rewrite O. cbn [bind]. rewrite I1, I2.
      assert (B2 : but_xt m m2) by (apply (but_xt_trans m m1 m2 B), U2). destruct (but_xt_view m2 B2) as (ET2 & EA2 & _).
      assert (GA : get_adj m2 (fst t) (snd t) = Ret (nb m (fst t) (snd t))) by (unfold get_adj; rewrite EA2; apply get_adj_ok; [apply live_intab|]; assumption).
      rewrite GA. cbn [bind]. change (nb m (fst t) (snd t) / 4) with (nxt_el m t). change (qv (aget (m_tet m) (fst t)) (snd (rvs t))) with (nxt_pv m p q t).
      assert (NT : fst t <> start) by congruence.
      assert (EX : forall us, pathS t us -> ~ In start (map fst us) -> pathS s (t :: us) /\ ~ In start (map fst (t :: us))).
      { intros us P N. split; [econstructor; eassumption|]. intros [E|I]; [congruence|contradiction]. }
      destruct (IH t m2 VT B2) as (ts & m3 & P & N & U3 & R & D).
      * intros us P N. destruct (EX us P N) as [P' N']. pose proof (LF _ P' N') as L. cbn [length] in L. lia.
      * intros us P N. destruct (EX us P N) as [P' N']. pose proof (ND _ P' N') as L. cbn [map] in L. inversion L; assumption.
      * destruct (EX ts P N) as [P' N']. exists (t :: ts), m3. split; [exact P'|]. split; [exact N'|].
        assert (ELs : last (s :: t :: ts) s = last (t :: ts) t) by (change (last (t :: ts) s = last (t :: ts) t); apply path_last_end).
        rewrite ELs. split; [|split; [exact R|exact D]].
        change (map fst (t :: ts)) with ([fst t] ++ map fst ts). apply (upd_app m1 m2 m3 _ _ U2 U3).
        -- intros k I. pose proof (p_valid m VO A p q PQ t ts P VT) as PV. change ([fst t] ++ map fst ts) with (map fst (t :: ts)) in I.
           apply in_map_iff in I. destruct I as (w & <- & Iw). apply (PV w Iw).
        -- intros k [<-|[]] I. pose proof (ND _ P' N') as L. cbn [map] in L. inversion L; contradiction.
Qed.
End Tag.

Section Set_.
Variable F : Z -> xtet -> xtet.
Variable m : mesh.
Hypothesis T : tables_ok m.
Hypothesis VO : vertices_ok m.
Hypothesis A : adjacent m.
Hypothesis X : xt_ok m.
Hypothesis XO : xt_own m.
Variable start ia : Z.
Hypothesis LS : live m start.
Hypothesis IA : 0 <= ia <= 5.
Let p := vtx m start (fst (iare ia)).
Let q := vtx m start (snd (iare ia)).
Let PQ : p <> q := pq m VO start ia LS IA.
Notation V := (Vs m p q).
Notation rvs := (rv m p q).
Notation stps := (stp m p q).
Notation pathS := (path state stps).
Let s0 : state := (start, fst (ifar ia)).

Lemma path_bound s us : V s -> fst s = start -> pathS s us -> ~ In start (map fst us) -> (length us <= Z.to_nat (m_nemax m))%nat /\ NoDup (map fst us).
Proof.
  intros H E P N. rewrite <- E in N. pose proof (p_nodup m VO A p q PQ s us P H N) as ND. split; [|cbn [map] in ND; inversion ND; assumption].
  assert (B : Z.of_nat (length (map fst (s :: us))) <= Z.max 0 (m_nemax m + 1)).
  { apply NoDup_Z_bound; [exact ND|]. intros k I. apply in_map_iff in I. destruct I as (t & <- & It).
    pose proof (p_valid m VO A p q PQ s us P H t It) as (L & _). destruct T as (_ & _ & LE & _ & LN & _). pose proof (LN _ L). pose proof (live_pos m _ L). lia. }
  rewrite map_length in B. cbn [length] in B. destruct T as (_ & _ & LE & _). unfold state in *. lia.
Qed.

Theorem shell_set_ok : exists m2, shell_set F m start ia = Ret (1, m2) /\ but_xt m m2 /\
  (forall k i, shell m p q start k -> edge_is m k i p q -> qxt (aget (m_tet m) k) <> 0 ->
     aget (m_xt m2) (qxt (aget (m_tet m) k)) = F i (aget (m_xt m) (qxt (aget (m_tet m) k)))) /\
  (forall x, (forall k, shell m p q start k -> qxt (aget (m_tet m) k) = x -> x = 0) -> aget (m_xt m2) x = aget (m_xt m) x).
Proof.
  assert (FIN : forall m2 S, upd_set F m p q m m2 S -> (forall k, In k S <-> shell m p q start k) ->
    but_xt m m2 /\
    (forall k i, shell m p q start k -> edge_is m k i p q -> qxt (aget (m_tet m) k) <> 0 ->
     aget (m_xt m2) (qxt (aget (m_tet m) k)) = F i (aget (m_xt m) (qxt (aget (m_tet m) k)))) /\
    (forall x, (forall k, shell m p q start k -> qxt (aget (m_tet m) k) = x -> x = 0) -> aget (m_xt m2) x = aget (m_xt m) x)).
  { intros m2 S (B & U & N) HS. split; [exact B|]. split.
    - intros k i Hk Ei NZ. rewrite (U k (proj2 (HS k) Hk) NZ). rewrite (findEdge_at m VO p q PQ k i (shell_live m p q start k LS Hk) Ei). reflexivity.
    - intros x H. apply N. intros k I. apply H, HS, I. }
  unfold shell_set. pose proof (live_pos m start LS) as PS. rewrite (proj2 (Z.leb_le 1 start) PS). cbn [c_assert bind].
  rewrite get_t_ok by (apply live_intab; assumption). cbn [bind].
  assert (OK : MG_EOK (aget (m_tet m) start) = true) by (apply Z.ltb_lt, LS). rewrite OK. cbn [c_assert bind]. cbv zeta.
  change (qv (aget (m_tet m) start) (fst (iare ia))) with p. change (qv (aget (m_tet m) start) (snd (iare ia))) with q.
  pose proof (edge_locs ia IA) as (_ & _ & L0 & L1 & _ & N01 & _).
  rewrite get_adj_ok by (try apply live_intab; assumption). cbn [bind].
  pose proof (V0 m VO start ia LS IA) as VS0. pose proof (rv0 m VO start ia LS IA) as R0. fold p q in VS0, R0. fold s0 in VS0, R0.
  pose proof (V_rev m VO p q PQ s0 VS0) as VR0.
  assert (EE : findEdge (aget (m_tet m) start) p q = ia) by (apply (findEdge_at m VO p q PQ start ia LS (edge0 m start ia IA))).
  destruct (on_x_ok F m X p q m start (but_xt_refl m) LS) as (m1 & O & U1). rewrite EE in O. rewrite O. cbn [bind].
  pose proof (proj1 U1) as B1. destruct (but_xt_view m m1 B1) as (ET1 & EA1 & EM1). rewrite EM1.
  assert (EP : qv (aget (m_tet m) start) (snd (ifar ia)) = nxt_pv m p q s0) by (unfold nxt_pv; rewrite R0; reflexivity). rewrite EP.
  change (nb m start (fst (ifar ia)) / 4) with (nxt_el m s0).
  destruct (shell_dir_ok F m T VO A X XO p q PQ start (Z.to_nat (m_nemax m)) s0 m1 VS0 B1) as (ts & m2 & P & N & U2 & R & D);
    [intros us P N; apply (path_bound s0 us VS0 eq_refl P N)|intros us P N; apply (path_bound s0 us VS0 eq_refl P N)|].
  cbv zeta in R, D. set (u := last (s0 :: ts) s0) in *. rewrite R. cbn [bind].
  pose proof (p_valid m VO A p q PQ s0 ts P VS0) as PV. assert (Iu : In u (s0 :: ts)) by apply last_in. pose proof (PV u Iu) as VU.
  assert (U12 : upd_set F m p q m m2 (map fst (s0 :: ts))).
  { change (map fst (s0 :: ts)) with ([start] ++ map fst ts). apply (upd_app F m XO p q m m1 m2 _ _ U1 U2).
    - intros k I. change ([start] ++ map fst ts) with (map fst (s0 :: ts)) in I. apply in_map_iff in I. destruct I as (w & <- & Iw). apply (PV w Iw).
    - intros k [<-|[]] I. contradiction. }
  destruct (Z.eqb_spec (nxt_el m u) start) as [ES|NS].
  - exists m2. split; [reflexivity|]. apply (FIN m2 _ U12). apply (closed_path m VO A p q PQ s0 ts P VS0 N). left.
    destruct (next_el m VO A p q PQ u VU) as [[E0 _]|(w & Ew & Fw & _)]; [lia|]. change (stps u = Some s0). rewrite Ew. f_equal.
    apply (p_close m VO A p q PQ s0 ts u w P VS0 eq_refl Ew). cbn [fst s0]. congruence.
  - destruct D as [D|D]; [|congruence]. rewrite D. cbn [Z.ltb Z.compare Z.eqb c_assert bind].
    pose proof (proj1 U12) as B2. destruct (but_xt_view m m2 B2) as (ET2 & EA2 & EM2).
    assert (GT : get_t m2 start = Ret (aget (m_tet m) start)) by (unfold get_t; rewrite ET2; apply get_t_ok, live_intab; assumption). rewrite GT. cbn [bind].
    assert (GA : get_adj m2 start (snd (ifar ia)) = Ret (nb m start (snd (ifar ia)))) by (unfold get_adj; rewrite EA2; apply get_adj_ok; [apply live_intab|]; assumption).
    rewrite GA. cbn [bind]. rewrite EM2.
    assert (EP2 : qv (aget (m_tet m) start) (fst (ifar ia)) = nxt_pv m p q (rvs s0)) by (unfold nxt_pv; rewrite (rv_rv m VO p q PQ s0 VS0); reflexivity). rewrite EP2.
    assert (EE2 : nb m start (snd (ifar ia)) / 4 = nxt_el m (rvs s0)) by (unfold nxt_el; rewrite R0; reflexivity). rewrite EE2.
    destruct (shell_dir_ok F m T VO A X XO p q PQ start (Z.to_nat (m_nemax m)) (rvs s0) m2 VR0 B2) as (us & m3 & P2 & N2 & U3 & R3 & D3);
      [intros us P2 N2; apply (path_bound (rvs s0) us VR0 eq_refl P2 N2)|intros us P2 N2; apply (path_bound (rvs s0) us VR0 eq_refl P2 N2)|].
    cbv zeta in R3, D3. set (v := last (rvs s0 :: us) (rvs s0)) in *. rewrite R3. cbn [bind].
    pose proof (p_valid m VO A p q PQ (rvs s0) us P2 VR0) as PV2. assert (Iv : In v (rvs s0 :: us)) by apply last_in. pose proof (PV2 v Iv) as VV.
    assert (SU : stps u = None) by (destruct (next_el m VO A p q PQ u VU) as [[_ E]|(w & _ & _ & E0 & _)]; [exact E|contradiction]).
    destruct (p_back m VO A p q PQ (rvs s0) us P2 VR0) as (l' & PB & MB & LB). fold v in PB, MB, LB. rewrite (rv_rv m VO p q PQ s0 VS0) in LB.
    assert (PJ : pathS (rvs v) (l' ++ ts)).
    { apply (path_app state stps (rvs v) l' s0 ts PB); [|exact P]. rewrite <- LB. symmetry. apply path_last_end. }
    assert (SV : stps v = None).
    { destruct (next_el m VO A p q PQ v VV) as [[_ E]|(w & Ew & Fw & E0 & _)]; [exact E|exfalso]. destruct D3 as [D3|D3]; [contradiction|].
      (* coming back to the start would close the forward turn *)
      assert (EW : w = rvs s0) by (apply (p_close m VO A p q PQ (rvs s0) us v w P2 VR0 eq_refl Ew); cbn [fst rv s0]; congruence).
      pose proof (step_back m VO A p q PQ v w VV Ew) as BK. rewrite EW, (rv_rv m VO p q PQ s0 VS0) in BK.
      (* the path from rv v goes to s0 and then on; the walk is a cycle *)
      assert (C : forall k, In k (map fst (rvs s0 :: us)) <-> shell m p q start k).
      { apply (closed_path m VO A p q PQ (rvs s0) us P2 VR0 N2). left. change (stps v = Some (rvs s0)). congruence. }
      destruct (proj2 (C (fst u)) (path_shell m VO A p q PQ s0 ts P VS0 start (reach_refl _ _ _) u Iu)) as [Ek|Ik].
      - (* u is at start *)
        destruct (el_eq m VO p q PQ s0 u VS0 VU) as [Eu|Eu]; [exact Ek| |].
        + rewrite Eu in SU. rewrite SU in BK. discriminate.
        + destruct Iu as [Eu'|Iu]; [rewrite <- Eu' in Eu; apply (rv_neq m VO p q PQ s0 VS0); symmetry; exact Eu|].
          apply N. rewrite <- (f_equal fst Eu : fst u = start). apply in_map, Iu.
      - apply in_map_iff in Ik. destruct Ik as (x & Ex & Ix). destruct (path_pred m p q (rvs s0) us P2 x Ix) as (y & Iy & Ey).
        destruct (el_eq m VO p q PQ x u (PV2 x (or_intror Ix)) VU Ex) as [Eu|Eu].
        + destruct (path_succ m p q (rvs s0) us P2 x (or_intror Ix)) as [E|(z & _ & Ez)]; [change (x = v) in E; congruence|congruence].
        + rewrite (f_equal stps Eu) in SU. rewrite (step_back m VO A p q PQ y x (PV2 y Iy) Ey) in SU. discriminate. }
    assert (D4 : nxt_el m v = 0).
    { destruct (next_el m VO A p q PQ v VV) as [[E _]|(w & Ew & _)]; [exact E|congruence]. }
    rewrite D4. cbn [Z.ltb Z.compare]. exists m3. split; [reflexivity|].
    pose proof (V_rev m VO p q PQ v VV) as VRV.
    assert (NH : stps (rvs (rvs v)) = None) by (rewrite (rv_rv m VO p q PQ v VV); exact SV).
    pose proof (p_start m VO A p q PQ (rvs v) (l' ++ ts) PJ VRV NH) as NJ.
    pose proof (p_nodup m VO A p q PQ (rvs v) (l' ++ ts) PJ VRV NJ) as NDJ.
    assert (MJ : map fst (rvs v :: l' ++ ts) = rev (map fst (rvs s0 :: us)) ++ map fst ts).
    { rewrite app_comm_cons, map_app, MB. reflexivity. }
    assert (LJ : last (rvs v :: l' ++ ts) (rvs v) = u).
    { assert (LB' : last (rvs v :: l') (rvs v) = s0) by (rewrite <- LB; symmetry; apply path_last_end).
      unfold u. clear - LB'. destruct ts as [|t ts].
      - rewrite app_nil_r. exact LB'.
      - rewrite app_comm_cons. rewrite (app_removelast_last s0 (l := t :: ts)) by discriminate. rewrite app_assoc, last_last.
        change (last (s0 :: t :: ts) s0) with (last (t :: ts) s0). rewrite <- (app_removelast_last s0 (l := t :: ts)) by discriminate. reflexivity. }
    assert (CJ : forall k, In k (map fst (rvs v :: l' ++ ts)) <-> shell m p q (fst v) k).
    { apply (closed_path m VO A p q PQ (rvs v) (l' ++ ts) PJ VRV NJ). right. split; [|exact NH]. exact (eq_trans (f_equal stps LJ) SU). }
    assert (SHV : shell m p q start (fst v)) by (apply (path_shell m VO A p q PQ (rvs s0) us P2 VR0 start (reach_refl _ _ _) v Iv)).
    apply (FIN m3 (map fst (s0 :: ts) ++ map fst us)).
    + apply (upd_app F m XO p q m m2 m3 _ _ U12 U3).
      * intros k I. apply in_app_or in I. destruct I as [I|I]; apply in_map_iff in I; destruct I as (w & <- & Iw); [apply (PV w Iw)|apply (PV2 w (or_intror Iw))].
      * intros k I I2. destruct I as [E|I]; [subst k; contradiction|]. pose proof (eq_ind _ (fun l => NoDup l) NDJ _ MJ) as NDK. cbv beta in NDK. clear NDJ. rename NDK into NDJ.
        assert (IR : In k (rev (map fst (rvs s0 :: us)))) by (rewrite <- in_rev; right; exact I2).
        clear - NDJ IR I. induction (rev (map fst (rvs s0 :: us))) as [|y l IH]; [destruct IR|]. cbn [app] in NDJ. inversion NDJ; subst.
        destruct IR as [->|IR]; [apply H1, in_or_app; right; exact I|apply IH; assumption].
    + intros k. assert (EQ : In k (map fst (s0 :: ts) ++ map fst us) <-> In k (map fst (rvs v :: l' ++ ts))).
      { rewrite MJ, !in_app_iff, <- in_rev. cbn [map In fst rv s0]. tauto. }
      rewrite EQ, CJ. split; intros H; [apply shell_trans with (fst v); assumption|]. apply shell_trans with start; [|exact H]. apply shell_sym; assumption.
Qed.
End Set_.
