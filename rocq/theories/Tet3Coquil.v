(** [MMG5_coquil] lists the shell of an edge. *)
From Coq Require Import ZArith List Lia Bool.
From Verif Require Import CBase Tet3Model Tet3Spec Tet3Proofs Walk Tet3Shell Tet3Turn.
Import ListNotations.
Open Scope Z_scope.

(** The two sides of a face have the same boundary mark. *)
Definition marks_ok (m : mesh) : Prop :=
  forall k i l j, live m k -> live m l -> loc i -> loc j -> nb m k i = 4 * l + j -> fbdy m k i = fbdy m l j.

(** The shell has a face without neighbour; a boundary face. *)
Definition open_shell (m : mesh) (p q start : Z) : Prop :=
  exists k i, shell m p q start k /\ loc i /\ on_face m k i p /\ on_face m k i q /\ nb m k i = 0.
Definition bdy_shell (m : mesh) (p q start : Z) : Prop :=
  exists k i, shell m p q start k /\ loc i /\ on_face m k i p /\ on_face m k i q /\ (nb m k i = 0 \/ fbdy m k i = true).

Section Coquil.
Variable m : mesh.
Hypothesis T : tables_ok m.
Hypothesis VO : vertices_ok m.
Hypothesis A : adjacent m.
Hypothesis X : xt_ok m.
Variable start ia : Z.
Hypothesis LS : live m start.
Hypothesis IA : 0 <= ia <= 5.
Let p := vtx m start (fst (iare ia)).
Let q := vtx m start (snd (iare ia)).

Lemma pq : p <> q.
Proof.
  pose proof (edge_locs ia IA) as (La & Lb & _ & _ & N & _). destruct (VO start LS) as [_ J]. intros E. apply N, J; assumption.
Qed.

Notation V := (Vs m p q).
Notation rvs := (rv m p q).
Notation stps := (stp m p q).
Notation pathS := (path state stps).
Let s0 : state := (start, fst (ifar ia)).

Lemma edge0 : edge_is m start ia p q.
Proof. split; [exact IA|]. left. split; reflexivity. Qed.
Lemma V0 : V s0.
Proof. apply (far_states m VO p q pq start ia LS edge0). Qed.
Lemma rv0 : rvs s0 = (start, snd (ifar ia)).
Proof. apply (far_states m VO p q pq start ia LS edge0). Qed.
Lemma ent0 : ent m p q s0 = 6 * start + ia.
Proof. unfold ent, s0. cbn [fst]. rewrite (findEdge_at m VO p q pq start ia LS edge0). reflexivity. Qed.

Lemma state_faces s : V s -> forall i, loc i -> (on_face m (fst s) i p /\ on_face m (fst s) i q) <-> (i = snd s \/ i = snd (rvs s)).
Proof.
  intros H i Li. destruct (state_four m VO p q pq s H) as (a & b & La & Lb & Ea & Eb & R). cbv zeta in R. destruct R as (Lg & Ga & Gb & Gf & Gp & Gq & GA).
  pose proof H as (L & _ & _ & Lf & Fp & Fq). split.
  - intros [O1 O2]. destruct (GA i Li) as [->|[->|[->| ->]]]; auto; exfalso.
    + apply (not_on m (fst s) a VO L La). rewrite Ea. exact O1.
    + apply (not_on m (fst s) b VO L Lb). rewrite Eb. exact O2.
  - intros [->| ->]; (split; [rewrite <- Ea|rewrite <- Eb]; apply on_other; try assumption; congruence).
Qed.

Lemma el_len (ts : list state) : length (map fst ts) = length ts.
Proof. apply map_length. Qed.

Lemma last_map {B C} (f : B -> C) l d e : l <> [] -> last (map f l) e = f (last l d).
Proof. induction l as [|x [|y l] IH]; intros N; [congruence|reflexivity|]. change (last (map f (y :: l)) e = f (last (y :: l) d)). apply IH. discriminate. Qed.

Theorem coquil_ok : exists r l b, coquil m start ia = Ret (r, l, b) /\
  ( (r = 0 /\ exists k, shell m p q start k /\ required m k) \/
    (r = -1 /\ exists ks, NoDup ks /\ Z.of_nat (length ks) > LMAX - 3 /\ forall k, In k ks -> shell m p q start k) \/
    (0 < r /\ r / 2 = Z.of_nat (length l) /\ NoDup (map (fun e => e / 6) l) /\
     (forall k, In k (map (fun e => e / 6) l) <-> shell m p q start k) /\
     (forall e, In e l -> edge_is m (e / 6) (e mod 6) p q) /\
     (forall k, shell m p q start k -> k <> start -> ~ required m k) /\
     (r mod 2 = 1 <-> open_shell m p q start) /\
     (marks_ok m -> (b = true <-> bdy_shell m p q start))) ).
Proof.
  unfold coquil. pose proof (live_pos m start LS) as PS. rewrite (proj2 (Z.leb_le 1 start) PS). cbn [c_assert bind].
  rewrite get_t_ok by (apply live_intab; assumption). cbn [bind].
  assert (OK : MG_EOK (aget (m_tet m) start) = true) by (apply Z.ltb_lt, LS). rewrite OK. cbn [c_assert bind]. cbv zeta.
  change (qv (aget (m_tet m) start) (fst (iare ia))) with p. change (qv (aget (m_tet m) start) (snd (iare ia))) with q.
  pose proof (edge_locs ia IA) as (_ & _ & L0 & L1 & _ & N01 & _).
  rewrite get_adj_ok by (try apply live_intab; assumption). cbn [bind]. rewrite (face_bdy_ok m X start (fst (ifar ia)) LS). cbn [bind].
  pose proof V0 as VS0.
  assert (EP : qv (aget (m_tet m) start) (snd (ifar ia)) = nxt_pv m p q s0) by (unfold nxt_pv; rewrite rv0; reflexivity). rewrite EP.
  change (nb m start (fst (ifar ia)) / 4) with (nxt_el m s0).
  destruct (coquil_one_ok m T VO A p q pq X start (Z.to_nat LMAX) s0 [6 * start + ia] (fbdy m start (fst (ifar ia))) VS0) as (ts & P & C);
    [rewrite Z2Nat.id by (unfold LMAX; lia); cbn [length]; lia|cbn [length]; unfold LMAX; lia|].
  pose proof (path_shell m VO A p q pq s0 ts P VS0 start (reach_refl _ _ _)) as PSH.
  destruct C as [(R & t & It & RQ & _)|[(R & N & LE)|(u & EL & N & NR & R & D)]]; rewrite R; cbn [bind].
  { exists 0, [], false. split; [reflexivity|]. left. split; [reflexivity|]. exists (fst t). split; [apply PSH; right; exact It|exact RQ]. }
  { exists (-1), [], false. split; [reflexivity|]. right; left. split; [reflexivity|]. exists (map fst (s0 :: ts)).
    split; [apply (p_nodup m VO A p q pq s0 ts P VS0 N)|]. split; [rewrite el_len; cbn [length] in *; lia|].
    intros k I. apply in_map_iff in I. destruct I as (t & <- & It). apply PSH, It. }
  assert (EN : [6 * start + ia] ++ map (ent m p q) ts = map (ent m p q) (s0 :: ts)) by (cbn [map app]; rewrite ent0; reflexivity).
  rewrite EN. pose proof (p_valid m VO A p q pq s0 ts P VS0) as PV.
  assert (Iu : In u (s0 :: ts)) by (rewrite <- EL; apply last_in). pose proof (PV u Iu) as VU.
  assert (ELS : forall L, (forall t, In t L -> V t) -> map (fun e => e / 6) (map (ent m p q) L) = map fst L).
  { intros L HL. rewrite map_map. apply map_ext_in. intros t It. apply (ent_dec m VO p q pq t (HL t It)). }
  assert (EDG : forall L, (forall t, In t L -> V t) -> forall e, In e (map (ent m p q) L) -> edge_is m (e / 6) (e mod 6) p q).
  { intros L HL e Ie. apply in_map_iff in Ie. destruct Ie as (t & <- & It). destruct (ent_dec m VO p q pq t (HL t It)) as [-> H]. exact H. }
  destruct (Z.eqb_spec (nxt_el m u) start) as [ES|NS].
  - (* closed *)
    assert (SU : stps u = Some s0).
    { destruct (next_el m VO A p q pq u VU) as [[E0 _]|(w & Ew & Fw & _)]; [lia|]. rewrite Ew. f_equal.
      apply (p_close m VO A p q pq s0 ts u w P VS0 EL Ew). cbn [fst s0]. congruence. }
    pose proof (closed_path m VO A p q pq s0 ts P VS0 N (or_introl (eq_trans (f_equal stps EL) SU))) as CL.
    eexists _, _, _. split; [reflexivity|]. right; right. rewrite map_length.
    split; [cbn [length]; lia|]. split; [rewrite Z.mul_comm, Z.div_mul by lia; reflexivity|].
    rewrite ELS by exact PV. split; [apply (p_nodup m VO A p q pq s0 ts P VS0 N)|]. split; [exact CL|]. split; [apply EDG, PV|]. split.
    { intros k Hk Nk. apply CL in Hk. destruct Hk as [E|Hk]; [exfalso; apply Nk; symmetry; exact E|]. apply in_map_iff in Hk. destruct Hk as (t & <- & It). apply NR, It. }
    assert (NZ : forall s, In s (s0 :: ts) -> (exists t, In t (s0 :: ts) /\ stps s = Some t) /\ (exists t, In t (s0 :: ts) /\ stps t = Some s)).
    { intros s Is. split.
      - destruct (path_succ m p q s0 ts P s Is) as [E|(w & Iw & Ew)]; [|exists w; split; [right; exact Iw|exact Ew]].
        exists s0. split; [left; reflexivity|]. rewrite E, EL. exact SU.
      - destruct Is as [<-|Is]; [exists u; auto|]. apply (path_pred m p q s0 ts P s Is). }
    assert (FZ : forall k i, shell m p q start k -> loc i -> on_face m k i p -> on_face m k i q -> exists s, In s (s0 :: ts) /\ fst s = k /\ (i = snd s \/ i = snd (rvs s))).
    { intros k i Hk Li O1 O2. apply CL in Hk. apply in_map_iff in Hk. destruct Hk as (s & <- & Is). exists s. split; [exact Is|]. split; [reflexivity|].
      apply (state_faces s (PV s Is) i Li). auto. }
    split.
    + split; [rewrite Z.mul_comm, Z.mod_mul by lia; discriminate|]. intros (k & i & Hk & Li & O1 & O2 & Z0). exfalso.
      destruct (FZ k i Hk Li O1 O2) as (s & Is & <- & [->| ->]); destruct (NZ s Is) as [(t & It & Et) (w & Iw & Ew)].
      * apply (step_ok m VO A p q pq s t (PV s Is) Et). exact Z0.
      * pose proof (step_back m VO A p q pq w s (PV w Iw) Ew) as B. apply (step_ok m VO A p q pq (rvs s) (rvs w) (V_rev m VO p q pq s (PV s Is)) B). exact Z0.
    + intros MO. change (fbdy m start (fst (ifar ia)) || bdys m ts) with (bdys m (s0 :: ts)). split.
      * intros B. apply existsb_exists in B. destruct B as (s & Is & Bs). cbv beta in Bs. exists (fst s), (snd s). split; [apply CL; apply in_map, Is|].
        pose proof (PV s Is) as Hs. split; [apply Hs|]. destruct (proj2 (state_faces s Hs (snd s) (proj1 (proj2 (proj2 (proj2 Hs))))) (or_introl eq_refl)) as [O1 O2]. auto.
      * intros (k & i & Hk & Li & O1 & O2 & C). destruct (FZ k i Hk Li O1 O2) as (s & Is & <- & [->| ->]); destruct (NZ s Is) as [(t & It & Et) (w & Iw & Ew)].
        -- destruct C as [Z0|B]; [exfalso; apply (step_ok m VO A p q pq s t (PV s Is) Et); exact Z0|]. apply existsb_exists. exists s. auto.
        -- pose proof (step_back m VO A p q pq w s (PV w Iw) Ew) as B. pose proof (V_rev m VO p q pq s (PV s Is)) as VR.
           destruct C as [Z0|B2]; [exfalso; apply (step_ok m VO A p q pq (rvs s) (rvs w) VR B); exact Z0|].
           apply existsb_exists. exists w. split; [exact Iw|]. rewrite <- B2.
           destruct (step_ok m VO A p q pq w s (PV w Iw) Ew) as (E1 & Vs1 & _ & Lj & ER & _ & NZw & BK & _).
           assert (Es : snd (rvs s) = nb m (fst w) (snd w) mod 4) by (rewrite ER; reflexivity). rewrite Es.
           pose proof (PV w Iw) as (Lw & _ & _ & Lfw & _). symmetry. apply MO; [apply Vs1|exact Lw|exact Lj|exact Lfw|exact BK].
  - (* open *)
    destruct D as [D|D]; [|congruence]. assert (SU : stps u = None).
    { destruct (next_el m VO A p q pq u VU) as [[_ E]|(w & _ & _ & E0 & _)]; [exact E|contradiction]. }
    rewrite (last_map (ent m p q) (s0 :: ts) s0 0) by discriminate. rewrite EL.
    destruct (ent_dec m VO p q pq u VU) as [EU EI]. rewrite EU. pose proof VU as (Lu & _ & _ & Lfu & _).
    rewrite get_t_ok by (apply live_intab; assumption). cbn [bind].
    pose proof (V_rev m VO p q pq u VU) as VR. pose proof VR as (_ & _ & _ & Lgu & _).
    destruct (turn_idx m VO p q pq (rvs u) VR) as (_ & I1 & I2). cbv zeta in I1, I2. change (fst (rvs u)) with (fst u) in I1, I2.
    rewrite (findEdge_at m VO p q pq (fst u) (ent m p q u mod 6) Lu EI) in I1, I2. change (vtx m (fst u) (snd (rvs u))) with (nxt_pv m p q u) in I1, I2.
    rewrite I1, I2. rewrite (rv_rv m VO p q pq u VU). change (qv (aget (m_tet m) (fst u)) (snd u)) with (vtx m (fst u) (snd u)).
    rewrite get_adj_ok by (try apply live_intab; assumption). cbn [bind].
    assert (EV : vtx m (fst u) (snd u) = nxt_pv m p q (rvs u)) by (unfold nxt_pv; rewrite (rv_rv m VO p q pq u VU); reflexivity). rewrite EV.
    change (nb m (fst u) (snd (rvs u))) with (nb m (fst (rvs u)) (snd (rvs u))).
    destruct (coquil_two_ok m T VO A p q pq (Z.to_nat LMAX) (rvs u) [ent m p q u] VR) as (us & P2 & C2);
      [rewrite Z2Nat.id by (unfold LMAX; lia); cbn [length]; lia|cbn [length]; unfold LMAX; lia|].
    assert (NH : stps (rvs (rvs u)) = None) by (rewrite (rv_rv m VO p q pq u VU); exact SU).
    pose proof (p_start m VO A p q pq (rvs u) us P2 VR NH) as N2.
    pose proof (p_nodup m VO A p q pq (rvs u) us P2 VR N2) as ND2.
    assert (SHU : shell m p q start (fst (rvs u))) by exact (PSH u Iu).
    pose proof (path_shell m VO A p q pq (rvs u) us P2 VR start SHU) as PSH2.
    destruct C2 as [(R2 & t & It & RQ)|[(R2 & LE)|(v & EL2 & SV & NR2 & R2)]]; rewrite R2; cbn [bind].
    { exists 0, [], false. split; [reflexivity|]. left. split; [reflexivity|]. exists (fst t). split; [apply PSH2; right; exact It|exact RQ]. }
    { exists (-1), [], false. split; [reflexivity|]. right; left. split; [reflexivity|]. exists (map fst (rvs u :: us)).
      split; [exact ND2|]. split; [rewrite el_len; cbn [length] in *; lia|].
      intros k I. apply in_map_iff in I. destruct I as (t & <- & It). apply PSH2, It. }
    assert (EN2 : [ent m p q u] ++ map (ent m p q) us = map (ent m p q) (rvs u :: us)) by reflexivity. rewrite EN2.
    pose proof (p_valid m VO A p q pq (rvs u) us P2 VR) as PV2.
    assert (CL : forall k, In k (map fst (rvs u :: us)) <-> shell m p q start k).
    { intros k. rewrite (closed_path m VO A p q pq (rvs u) us P2 VR N2 (or_intror (conj (eq_trans (f_equal stps EL2) SV) NH)) k). split; intros H.
      - apply shell_trans with (fst (rvs u)); assumption.
      - apply shell_trans with start; [|exact H]. apply shell_sym; assumption. }
    eexists _, _, _. split; [reflexivity|]. right; right. rewrite map_length. rewrite ELS by exact PV2.
    split; [cbn [length]; lia|]. split; [symmetry; apply Z.div_unique with 1; lia|]. split; [exact ND2|]. split; [exact CL|]. split; [apply EDG, PV2|].
    assert (OP : open_shell m p q start).
    { exists (fst u), (snd u). split; [exact SHU|]. split; [exact Lfu|]. destruct (proj2 (state_faces u VU (snd u) Lfu) (or_introl eq_refl)) as [O1 O2].
      split; [exact O1|]. split; [exact O2|]. unfold stp in SU. destruct (Z.eqb_spec (nb m (fst u) (snd u)) 0); [assumption|discriminate]. }
    split; [|split].
    + intros k Hk Nk. apply CL in Hk. destruct Hk as [E|Hk].
      * destruct Iu as [Eu|Iu]; [exfalso; apply Nk; rewrite <- E, <- Eu; reflexivity|]. rewrite <- E. apply (NR u Iu).
      * apply in_map_iff in Hk. destruct Hk as (t & <- & It). apply NR2, It.
    + split; [intros _; exact OP|]. intros _. symmetry. apply Z.mod_unique with (Z.of_nat (length (rvs u :: us))); lia.
    + intros _. split; [intros _|reflexivity]. destruct OP as (k & i & H1 & H2 & H3 & H4 & H5). exists k, i. auto 10.
Qed.
End Coquil.
