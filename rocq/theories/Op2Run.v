(** The runs of the collapse: what the three functions write, and the result. *)
From Coq Require Import ZArith List Lia Bool.
From Verif Require Import CBase Op2Model Op2Spec Op2Proofs Op2Split Op2Split2 Op2Col Op2Ball Op2Del.
Import ListNotations.
Open Scope Z_scope.

Lemma lor_bound a b n : 0 <= n -> 0 <= a < 2 ^ n -> 0 <= b < 2 ^ n -> 0 <= Z.lor a b < 2 ^ n.
Proof.
  intros Hn [A1 A2] [B1 B2]. split; [apply Z.lor_nonneg; auto|].
  destruct (Z.eq_dec (Z.lor a b) 0) as [->|N]; [apply Z.pow_pos_nonneg; lia|].
  assert (0 < Z.lor a b) by (assert (0 <= Z.lor a b) by (apply Z.lor_nonneg; auto); lia).
  apply Z.log2_lt_pow2; [assumption|]. rewrite Z.log2_lor by assumption.
  assert (L : forall x, 0 <= x < 2 ^ n -> 0 < n -> Z.log2 x < n).
  { intros x [X1 X2] X3. destruct (Z.eq_dec x 0) as [->|]; [exact X3|]. apply Z.log2_lt_pow2; lia. }
  assert (0 < n). { destruct (Z.eq_dec n 0) as [->|]; [|lia]. change (2 ^ 0) with 1 in *. assert (a = 0) by lia. assert (b = 0) by lia. subst. exfalso. apply N. reflexivity. }
  apply Z.max_lub_lt; apply L; auto.
Qed.

Lemma tables_pts m a : tables_ok m -> tables_ok (p_pts m a).
Proof.
  intros (A & B & C & D & E & (fl & F) & G). split; [exact A|]. split; [exact B|]. split; [exact C|]. split; [exact D|]. split; [exact E|].
  split; [|exact G]. exists fl. apply (chain_frame2 m (p_pts m a)); [cbn; lia|auto|exact F|reflexivity].
Qed.

(** Deletion of the point and of the triangles on the edge. *)
Lemma finish_ok s k (cl : bool) l p1 : tables_ok s -> live s k -> (cl = true -> live s l /\ l <> k) -> 1 <= p1 < alen (m_ptag s) ->
  exists m', (a <- delPt s p1 ;; ' (_, a) <- delElt a k ;;
              (if cl then ' (_, a) <- delElt a l ;; Ret (1, a) else Ret (1, a))) = Ret (1, m') /\
  tables_ok m' /\ ~ alive m' p1 /\ (forall z, z <> p1 -> alive s z -> alive m' z) /\
  (forall x, live m' x <-> live s x /\ x <> k /\ (cl = true -> x <> l)) /\
  (forall x y, live m' x -> vtx m' x y = vtx s x y /\ tag m' x y = tag s x y /\ edg m' x y = edg s x y) /\
  (forall x y, live m' x -> loc y -> nb m' x y = nb s x y).
Proof.
  intros HT Lk Hl Hp. unfold delPt, set_pt. rewrite wr_ok by lia. cbn [bind]. set (s1 := p_pts s _).
  assert (T1 : tables_ok s1) by apply tables_pts, HT.
  destruct (delElt_ok s1 k T1 Lk) as (s2 & E2 & T2 & P2 & L2 & V2 & N2). rewrite E2. cbn [bind].
  assert (NA : ~ alive s1 p1). { intros [_ [_ X]]. unfold s1 in X. cbn in X. rewrite upd_same in X. lia. }
  assert (AL : forall z, z <> p1 -> alive s z -> alive s1 z).
  { intros z Nz [Z1 Z2]. split; [exact Z1|]. unfold s1. cbn. rewrite upd_other by exact Nz. exact Z2. }
  destruct cl.
  - destruct (Hl eq_refl) as [Ll Nl].
    destruct (delElt_ok s2 l T2) as (s3 & E3 & T3 & P3 & L3 & V3 & N3); [apply L2; split; [exact Ll|exact Nl]|].
    rewrite E3. cbn [bind]. exists s3. split; [reflexivity|]. split; [exact T3|].
    unfold alive. rewrite P3, P2. split; [exact NA|]. split; [exact AL|].
    split; [intros x; rewrite L3, L2; change (live s1 x) with (live s x); intuition|].
    split; intros x y Lx; apply L3 in Lx; destruct Lx as [Lx Nx]; apply L2 in Lx; destruct Lx as [Lx Nk].
    + destruct (V3 x y Nx) as (-> & -> & ->). apply (V2 x y Nk).
    + intros Ly. rewrite N3 by assumption. apply N2; assumption.
  - exists s2. split; [reflexivity|]. split; [exact T2|].
    unfold alive. rewrite P2. split; [exact NA|]. split; [exact AL|].
    split; [intros x; rewrite L2; change (live s1 x) with (live s x); intuition congruence|].
    split; intros x y Lx; apply L2 in Lx; destruct Lx as [Lx Nk].
    + apply (V2 x y Nk).
    + intros Ly. apply N2; assumption.
Qed.

Section Col.
Variables (m : mesh) (k i : Z).
Hypothesis HT : tables_ok m.
Hypothesis HV : vertices_ok m.
Hypothesis HO : oriented m.
Hypothesis HA : adjacent m.
Hypothesis Lk : live m k.
Hypothesis Li : loc i.
Variables p p1 p2 : Z.
Hypothesis Ep : vtx m k i = p.
Hypothesis Ep1 : vtx m k (inxt2 i) = p1.
Hypothesis Ep2 : vtx m k (iprv2 i) = p2.
Hypothesis HL : link_ok m p1 p2.
Variables (cl : bool) (l j q k2 j2 : Z).
Hypothesis Hcl : if cl then nbr m k i l j /\ vtx m l j = q /\ q <> p /\ nbr m l (inxt2 j) k2 j2 else nb m k i = 0.
Variables k1 j1 : Z.
Hypothesis HN1 : nbr m k (iprv2 i) k1 j1.

Definition kept (x : Z) : Prop := live m x /\ x <> k /\ (cl = true -> x <> l).

(** The mesh before the deletions. *)
Definition stage (cond : Prop) (s : mesh) : Prop :=
  same_frame (p_pts m (m_ptag s)) s /\ (forall z, alive m z -> alive s z) /\
  (forall x, live s x <-> live m x) /\ (forall x, ~ live m x -> vtx s x 2 = vtx m x 2) /\
  (forall x y, kept x -> loc y -> vtx s x y = if vtx m x y =? p1 then p2 else vtx m x y) /\
  (forall x y, kept x -> loc y -> nb s x y =
    if at2 k1 j1 x y then nb m k (inxt2 i)
    else if cl && at2 k2 j2 x y then nb m l (iprv2 j)
    else if nb m x y =? 3 * k + inxt2 i then 3 * k1 + j1
    else if cl && (nb m x y =? 3 * l + iprv2 j) then 3 * k2 + j2
    else nb m x y) /\
  (tags_agree m -> cond -> exists T1 T2 G1 G2,
    (forall x y, kept x -> loc y -> tag s x y =
      if at2 k1 j1 x y || (nb m x y =? 3 * k + inxt2 i) then T1
      else if cl && (at2 k2 j2 x y || (nb m x y =? 3 * l + iprv2 j)) then T2 else tag m x y) /\
    (forall x y, kept x -> loc y -> edg s x y =
      if at2 k1 j1 x y || (nb m x y =? 3 * k + inxt2 i) then G1
      else if cl && (at2 k2 j2 x y || (nb m x y =? 3 * l + iprv2 j)) then G2 else edg m x y)).

(** What the collapse gives. *)
Definition contracted (cond : Prop) (m' : mesh) : Prop :=
  conforming m' /\ (tags_agree m -> cond -> tags_agree m') /\ unused m' p1 /\ ~ alive m' p1 /\
  (forall x, live m' x <-> kept x) /\
  (forall x y, live m' x -> loc y -> vtx m' x y = if vtx m x y =? p1 then p2 else vtx m x y).

Lemma l_live : cl = true -> live m l /\ l <> k.
Proof.
  intros E. destruct (cl_facts m k i HV Lk Li p p1 p2 Ep1 Ep2 cl l j q k2 j2 Hcl E) as (A & _ & _ & _ & B & _). auto.
Qed.

Lemma stage_finish cond s : stage cond s ->
  exists m', (a <- delPt s p1 ;; ' (_, a) <- delElt a k ;;
              (if cl then ' (_, a) <- delElt a l ;; Ret (1, a) else Ret (1, a))) = Ret (1, m') /\ contracted cond m'.
Proof.
  intros (F & AL & L & V2 & V & N & TG).
  assert (Ts : tables_ok s). { apply (tables_frame (p_pts m (m_ptag s)) s F); [exact L|exact V2|apply tables_pts, HT]. }
  assert (Ap1 : alive m p1). { rewrite <- Ep1. apply alive_at; auto using loc_nxt. }
  destruct (finish_ok s k cl l p1 Ts) as (m' & Em & Tm & NA & AL' & L' & V' & N').
  - apply L, Lk.
  - intros E. destruct (l_live E). split; [apply L|]; assumption.
  - apply AL, Ap1.
  - exists m'. split; [exact Em|].
    assert (LK : forall x, live m' x <-> kept x) by (intros x; rewrite L', L; reflexivity).
    assert (Hv : forall x y, live m' x -> loc y -> vtx m' x y = if vtx m x y =? p1 then p2 else vtx m x y).
    { intros x y Lx Ly. destruct (V' x y Lx) as (-> & _). apply V; [apply LK, Lx|exact Ly]. }
    assert (Hn : forall x y, live m' x -> loc y -> nb m' x y =
      if at2 k1 j1 x y then nb m k (inxt2 i) else if cl && at2 k2 j2 x y then nb m l (iprv2 j)
      else if nb m x y =? 3 * k + inxt2 i then 3 * k1 + j1
      else if cl && (nb m x y =? 3 * l + iprv2 j) then 3 * k2 + j2 else nb m x y).
    { intros x y Lx Ly. rewrite N' by assumption. apply N; [apply LK, Lx|exact Ly]. }
    split; [|split; [|split; [|split; [exact NA|split; [exact LK|exact Hv]]]]].
    + split; [exact Tm|]. split; [|split].
      * apply (contract_vertices m m' k i HV HO HA Lk Li p p1 p2 Ep Ep1 Ep2 cl l j q k2 j2 Hcl k1 j1 LK Hv Hn). auto.
      * apply (contract_oriented m m' k i HV HO HA Lk Li p p1 p2 Ep Ep1 Ep2 HL cl l j q k2 j2 Hcl k1 j1 HN1 LK Hv Hn).
      * apply (contract_adjacent m m' k i HV HO HA Lk Li p p1 p2 Ep Ep1 Ep2 HL cl l j q k2 j2 Hcl k1 j1 HN1 LK Hv Hn).
    + intros TA C. destruct (TG TA C) as (T1 & T2 & G1 & G2 & HTg & HEd).
      apply (contract_tags m m' k i HV HO HA Lk Li p p1 p2 Ep Ep1 Ep2 cl l j q k2 j2 Hcl k1 j1 HN1 LK Hv Hn T1 T2 G1 G2 TA).
      * intros x y Lx Ly. destruct (V' x y Lx) as (_ & -> & _). apply HTg; [apply LK, Lx|exact Ly].
      * intros x y Lx Ly. destruct (V' x y Lx) as (_ & _ & ->). apply HEd; [apply LK, Lx|exact Ly].
    + apply (contract_unused m m' k i HV Lk Li p p1 p2 Ep Ep1 Ep2 Hv).
Qed.

(** ** Facts on the four edges that are joined *)
Lemma nb_eqb x y z w : live m x -> loc y -> live m z -> loc w -> (nb m x y =? 3 * z + w) = (nb m z w =? 3 * x + y).
Proof.
  intros Lx Ly Lz Lw. destruct (Z.eqb_spec (nb m x y) (3 * z + w)) as [E|N]; destruct (Z.eqb_spec (nb m z w) (3 * x + y)) as [E'|N']; try reflexivity; exfalso.
  - apply N', nb_sym; assumption.
  - apply N, nb_sym; assumption.
Qed.

Lemma k1_neq : k1 <> k /\ live m k1 /\ loc j1 /\ nb m k1 j1 = 3 * k + iprv2 i.
Proof.
  split; [apply (nbr_neq m k (iprv2 i) k1 j1 HV Lk (loc_prv _ Li) HN1)|]. destruct HN1 as (A & B & _ & C & _). auto.
Qed.

Lemma k_side : nb m k (inxt2 i) = 0 \/ (live m (nb m k (inxt2 i) / 3) /\ ~ (nb m k (inxt2 i) / 3 = k1 /\ nb m k (inxt2 i) mod 3 = j1)).
Proof.
  destruct (nb_read m k (inxt2 i) HO HA Lk (loc_nxt _ Li)) as [[E _]|(A & B & _ & C & _)]; [auto|right]. split; [exact A|].
  intros [E1 E2]. rewrite E1, E2 in C. destruct k1_neq as (_ & _ & _ & X). rewrite X in C. apply enc_dec in C; auto using loc_nxt, loc_prv.
  destruct C as [_ C]. symmetry in C. exact (nxt_neq_prv i Li C).
Qed.

Section Closed.
Hypothesis Ecl : cl = true.

Lemma cl_all : live m l /\ loc j /\ live m k2 /\ loc j2 /\ l <> k /\ nb m k2 j2 = 3 * l + inxt2 j /\ nb m l (inxt2 j) = 3 * k2 + j2.
Proof.
  destruct (cl_facts m k i HV Lk Li p p1 p2 Ep1 Ep2 cl l j q k2 j2 Hcl Ecl) as (A & B & C & D & E & _).
  rewrite Ecl in Hcl. destruct Hcl as (_ & _ & _ & (_ & _ & X & Y & _)). auto 10.
Qed.

Lemma l_side : nb m l (iprv2 j) = 0 \/ (live m (nb m l (iprv2 j) / 3) /\ ~ (nb m l (iprv2 j) / 3 = k2 /\ nb m l (iprv2 j) mod 3 = j2)).
Proof.
  destruct cl_all as (Ll & Lj & L2 & Lj2 & _ & X & _).
  destruct (nb_read m l (iprv2 j) HO HA Ll (loc_prv _ Lj)) as [[E _]|(A & B & _ & C & _)]; [auto|right]. split; [exact A|].
  intros [E1 E2]. rewrite E1, E2, X in C. apply enc_dec in C; auto using loc_nxt, loc_prv.
  destruct C as [_ C]. exact (nxt_neq_prv j Lj C).
Qed.

Lemma no_kl : nb m k (inxt2 i) <> 3 * l + iprv2 j.
Proof.
  intros E. destruct cl_all as (Ll & Lj & _).
  pose proof (nbr_full' m HO HA k (inxt2 i) l (iprv2 j) Lk (loc_nxt _ Li) Ll (loc_prv _ Lj) E) as (_ & _ & _ & _ & X).
  destruct (cl_facts m k i HV Lk Li p p1 p2 Ep1 Ep2 cl l j q k2 j2 Hcl Ecl) as (_ & _ & _ & _ & _ & _ & _ & Y & _).
  rewrite Y, Op2Proofs.ends_nxt, Ep, Ep2 in X by exact Li. cbn in X. inversion X.
  apply (qp m k i p cl l j q k2 j2 Hcl Ecl). assumption.
Qed.

Lemma no_kk2 : nb m k (inxt2 i) <> 3 * k2 + j2.
Proof.
  intros E. destruct cl_all as (Ll & Lj & L2 & Lj2 & N & X & _).
  apply nb_sym in E; auto using loc_nxt. rewrite X in E. apply enc_dec in E; auto using loc_nxt. destruct E. contradiction.
Qed.

Lemma no_k1k2 : ~ (k1 = k2 /\ j1 = j2).
Proof.
  intros [E1 E2]. destruct cl_all as (Ll & Lj & L2 & Lj2 & N & X & _). destruct k1_neq as (_ & _ & _ & Y). rewrite E1, E2, X in Y.
  apply enc_dec in Y; auto using loc_nxt, loc_prv. destruct Y. contradiction.
Qed.

Lemma no_lk1 : ~ (l = k1 /\ iprv2 j = j1).
Proof.
  intros [E1 E2]. destruct cl_all as (Ll & Lj & _). destruct HN1 as (_ & _ & _ & _ & X).
  destruct (cl_facts m k i HV Lk Li p p1 p2 Ep1 Ep2 cl l j q k2 j2 Hcl Ecl) as (_ & _ & _ & _ & _ & _ & _ & Y & _).
  rewrite <- E1, <- E2, Y, Op2Proofs.ends_prv, Ep, Ep1 in X by exact Li. cbn in X. inversion X.
  destruct (dist3 m k i HV Lk Li) as (D1 & D2 & D3). congruence.
Qed.

Lemma no_lk1' : nb m l (iprv2 j) <> 3 * k1 + j1.
Proof.
  intros E. destruct cl_all as (Ll & Lj & L2 & Lj2 & N & X & _). destruct k1_neq as (_ & L1 & Lj1 & Y).
  apply nb_sym in E; auto using loc_prv. rewrite Y in E. apply enc_dec in E; auto using loc_prv. destruct E as [E _]. congruence.
Qed.

End Closed.

(** The mesh where the vertex has moved and the links are still those of [m]. *)
Definition moved (s : mesh) : Prop :=
  same_frame (p_pts m (m_ptag s)) s /\ (forall z, alive m z -> alive s z) /\
  (forall x, live s x <-> live m x) /\ (forall x, ~ live m x -> vtx s x 2 = vtx m x 2) /\
  (forall x y, kept x -> loc y -> vtx s x y = if vtx m x y =? p1 then p2 else vtx m x y) /\
  (forall x y, tag s x y = tag m x y /\ edg s x y = edg m x y /\ nb s x y = nb m x y).

Lemma intab_same m0 s x : same_frame (p_pts m0 (m_ptag s)) s -> intab m0 x -> intab s x.
Proof. intros F I. apply (intab_frame (p_pts m0 (m_ptag s)) s x F). exact I. Qed.

Lemma lor_mid a b : Z.lor b (Z.lor a b) = Z.lor a b.
Proof. rewrite (Z.lor_comm a b), Z.lor_assoc, Z.lor_diag. reflexivity. Qed.

Lemma agree_at x y z w : tags_agree m -> live m x -> loc y -> loc w -> nb m x y = 3 * z + w -> 1 <= z -> tag m z w = tag m x y /\ edg m z w = edg m x y.
Proof.
  intros TA Lx Ly Lw E Hz. specialize (TA x y Lx Ly). rewrite E, dec_div, dec_mod in TA by exact Lw. apply TA. apply enc_pos1; assumption.
Qed.

Lemma link_frame s s' : same_frame s s' -> same_frame (p_pts m (m_ptag s)) s -> same_frame (p_pts m (m_ptag s')) s'.
Proof. unfold same_frame. cbn. intros (A1 & A2 & A3 & A4 & A5 & A6 & A7) (B1 & B2 & B3 & B4 & B5 & B6 & B7). repeat split; congruence. Qed.

Lemma live_frame s s' : same_frame s s' -> (forall x y, vtx s' x y = vtx s x y) -> forall x, live s' x <-> live s x.
Proof.
  intros F V x. unfold live. change (tv (aget (m_tri s') x) 0) with (vtx s' x 0). change (tv (aget (m_tri s) x) 0) with (vtx s x 0).
  rewrite V. destruct F as (-> & _). reflexivity.
Qed.

Lemma alive_frame s s' : same_frame s s' -> forall z, alive s z -> alive s' z.
Proof. intros F z. unfold alive. destruct F as (_ & _ & -> & _). auto. Qed.

Lemma live1 x : live m x -> 1 <= x.
Proof. unfold live. lia. Qed.

Lemma stage_open s0 : cl = false -> moved s0 -> exists s, col_link s0 k (inxt2 i) k1 j1 = Ret s /\ stage True s.
Proof.
  intros Ecl (F & AL & L & V2 & V & SM). destruct k1_neq as (Nk1 & L1 & Lj1 & Ek1).
  assert (Ik : intab s0 k) by (eapply intab_same; [exact F|apply live_intab; assumption]).
  assert (Ik1 : intab s0 k1) by (eapply intab_same; [exact F|apply live_intab; assumption]).
  destruct (SM k (inxt2 i)) as (Tk & Gk & Nk). destruct (SM k1 j1) as (T1 & G1 & _).
  destruct (col_link_run s0 k (inxt2 i) k1 j1 Ik (loc_nxt _ Li) Ik1 Lj1) as (s & Es & Fs & Vs & Ns & Ts & Gs).
  { rewrite Nk. destruct k_side as [E|[A B]]; [auto|right]. split; [|exact B]. eapply intab_same; [exact F|apply live_intab; assumption]. }
  exists s. split; [exact Es|]. rewrite Nk in Ns. rewrite Nk, T1, Tk in Ts. rewrite Nk, G1, Gk in Gs.
  split; [exact (link_frame _ _ Fs F)|]. split; [intros z Az; apply (alive_frame _ _ Fs), AL, Az|].
  split; [intros x; rewrite (live_frame _ _ Fs Vs); apply L|].
  split; [intros x Nx; rewrite Vs; apply V2, Nx|]. split; [intros x y Kx Ly; rewrite Vs; apply V; assumption|].
  rewrite Ecl. cbn [andb]. split.
  - intros x y (Lx & _) Ly. rewrite Ns by auto using live1. destruct (SM x y) as (_ & _ & ->).
    rewrite (nb_eqb x y k (inxt2 i)) by auto using loc_nxt. reflexivity.
  - intros TA _. exists (Z.lor (tag m k1 j1) (tag m k (inxt2 i))), 0, (Z.max (edg m k1 j1) (edg m k (inxt2 i))), 0.
    split; intros x y (Lx & _) Ly; [rewrite Ts by auto using live1|rewrite Gs by auto using live1]; destruct (SM x y) as (SX1 & SX2 & _); rewrite ?SX1, ?SX2;
      rewrite (nb_eqb x y k (inxt2 i)) by auto using loc_nxt; destruct (at2 k1 j1 x y); cbn [orb]; try reflexivity;
      destruct (Z.eqb_spec (nb m k (inxt2 i)) (3 * x + y)) as [E|]; try reflexivity;
      destruct (agree_at k (inxt2 i) x y TA Lk (loc_nxt _ Li) Ly E (live1 _ Lx)) as [AG1 AG2]; rewrite ?AG1, ?AG2.
    + apply lor_mid.
    + clear; lia.
Qed.

(** The four edges are different. *)
Lemma excl (Ecl : cl = true) x y : live m x -> loc y -> nb m l (iprv2 j) = 3 * x + y ->
  ~ (x = k1 /\ y = j1) /\ nb m k (inxt2 i) <> 3 * x + y.
Proof.
  intros Lx Ly E. destruct (cl_all Ecl) as (Ll & Lj & L2 & Lj2 & Nl & _). split.
  - intros [-> ->]. exact (no_lk1' Ecl E).
  - intros E'. pose proof (nb_sym m k (inxt2 i) x y HO HA Lk (loc_nxt _ Li) Lx Ly E') as S1.
    pose proof (nb_sym m l (iprv2 j) x y HO HA Ll (loc_prv _ Lj) Lx Ly E) as S2.
    rewrite S1 in S2. apply enc_dec in S2; auto using loc_nxt, loc_prv. destruct S2. congruence.
Qed.

Lemma order (Ecl : cl = true) x y : live m x -> loc y -> forall (A : Type) (a b c e f : A),
  (if at2 k2 j2 x y then b else if nb m l (iprv2 j) =? 3 * x + y then f
   else if at2 k1 j1 x y then a else if nb m k (inxt2 i) =? 3 * x + y then e else c) =
  (if at2 k1 j1 x y then a else if at2 k2 j2 x y then b
   else if nb m x y =? 3 * k + inxt2 i then e else if nb m x y =? 3 * l + iprv2 j then f else c).
Proof.
  intros Lx Ly A a b c e f. destruct (cl_all Ecl) as (Ll & Lj & L2 & Lj2 & Nl & _).
  rewrite (nb_eqb x y k (inxt2 i)), (nb_eqb x y l (iprv2 j)) by auto using loc_nxt, loc_prv.
  destruct (Z.eqb_spec (nb m l (iprv2 j)) (3 * x + y)) as [E|].
  - destruct (excl Ecl x y Lx Ly E) as [X1 X2]. rewrite (at2_dec_false k1 j1) by exact X1.
    destruct (Z.eqb_spec (nb m k (inxt2 i)) (3 * x + y)); [contradiction|]. reflexivity.
  - destruct (at2_dec k1 j1 x y) as [(E1 & E2 & ->)|(N1 & ->)]; [|reflexivity].
    rewrite at2_dec_false; [reflexivity|]. intros [X1 X2]. apply (no_k1k2 Ecl). split; congruence.
Qed.

Lemma order2 (Ecl : cl = true) x y : live m x -> loc y -> forall (A : Type) (a b c : A),
  (if at2 k2 j2 x y then b else if nb m l (iprv2 j) =? 3 * x + y then b
   else if at2 k1 j1 x y then a else if nb m k (inxt2 i) =? 3 * x + y then a else c) =
  (if at2 k1 j1 x y || (nb m x y =? 3 * k + inxt2 i) then a
   else if at2 k2 j2 x y || (nb m x y =? 3 * l + iprv2 j) then b else c).
Proof.
  intros Lx Ly A a b c. rewrite (order Ecl x y Lx Ly). destruct (cl_all Ecl) as (Ll & Lj & L2 & Lj2 & Nl & Ek2 & _).
  destruct (at2 k1 j1 x y); [reflexivity|]. cbn [orb].
  destruct (at2_dec k2 j2 x y) as [(E1 & E2 & ->)|(N1 & ->)]; cbn [orb]; [|reflexivity].
  rewrite E1, E2, Ek2. destruct (Z.eqb_spec (3 * l + inxt2 j) (3 * k + inxt2 i)) as [E|]; [|reflexivity].
  apply enc_dec in E; auto using loc_nxt. destruct E. contradiction.
Qed.

Lemma stage_closed s0 : cl = true -> moved s0 ->
  exists s1 s, col_link s0 k (inxt2 i) k1 j1 = Ret s1 /\ col_link s1 l (iprv2 j) k2 j2 = Ret s /\ stage True s.
Proof.
  intros Ecl (F & AL & L & V2 & V & SM). destruct k1_neq as (Nk1 & L1 & Lj1 & Ek1).
  destruct (cl_all Ecl) as (Ll & Lj & L2 & Lj2 & Nl & Ek2 & El).
  assert (IT : forall x, live m x -> intab s0 x) by (intros x Lx; eapply intab_same; [exact F|apply live_intab; assumption]).
  destruct (SM k (inxt2 i)) as (Tk & Gk & Nk). destruct (SM k1 j1) as (T1 & G1 & _).
  destruct (col_link_run s0 k (inxt2 i) k1 j1 (IT _ Lk) (loc_nxt _ Li) (IT _ L1) Lj1) as (s1 & Es1 & Fs1 & Vs1 & Ns1 & Ts1 & Gs1).
  { rewrite Nk. destruct k_side as [E|[A B]]; [auto|right]. split; [|exact B]. apply IT, A. }
  rewrite Nk in Ns1. rewrite Nk, T1, Tk in Ts1. rewrite Nk, G1, Gk in Gs1.
  (* the second link reads what [m] has *)
  assert (RL : nb s1 l (iprv2 j) = nb m l (iprv2 j) /\ tag s1 l (iprv2 j) = tag m l (iprv2 j) /\ edg s1 l (iprv2 j) = edg m l (iprv2 j)).
  { rewrite Ns1, Ts1, Gs1 by auto using live1, loc_prv. rewrite at2_dec_false by (exact (no_lk1 Ecl)).
    destruct (Z.eqb_spec (nb m k (inxt2 i)) (3 * l + iprv2 j)) as [E|]; [destruct (no_kl Ecl E)|].
    destruct (SM l (iprv2 j)) as (-> & -> & ->). auto. }
  assert (R2 : tag s1 k2 j2 = tag m k2 j2 /\ edg s1 k2 j2 = edg m k2 j2).
  { rewrite Ts1, Gs1 by auto using live1. rewrite at2_dec_false by (intros [X1 X2]; apply (no_k1k2 Ecl); split; congruence).
    destruct (Z.eqb_spec (nb m k (inxt2 i)) (3 * k2 + j2)) as [E|]; [destruct (no_kk2 Ecl E)|].
    destruct (SM k2 j2) as (-> & -> & _). auto. }
  destruct RL as (RLn & RLt & RLe). destruct R2 as (R2t & R2e).
  assert (IT1 : forall x, live m x -> intab s1 x) by (intros x Lx; apply (intab_frame s0 s1 x Fs1), IT, Lx).
  destruct (col_link_run s1 l (iprv2 j) k2 j2 (IT1 _ Ll) (loc_prv _ Lj) (IT1 _ L2) Lj2) as (s & Es & Fs & Vs & Ns & Ts & Gs).
  { rewrite RLn. destruct (l_side Ecl) as [E|[A B]]; [auto|right]. split; [|exact B]. apply IT1, A. }
  rewrite RLn in Ns. rewrite RLn, RLt, R2t in Ts. rewrite RLn, RLe, R2e in Gs.
  exists s1, s. split; [exact Es1|]. split; [exact Es|].
  pose proof (link_frame _ _ Fs1 F) as F1.
  split; [exact (link_frame _ _ Fs F1)|]. split; [intros z Az; apply (alive_frame _ _ Fs), (alive_frame _ _ Fs1), AL, Az|].
  split; [intros x; rewrite (live_frame _ _ Fs Vs), (live_frame _ _ Fs1 Vs1); apply L|].
  split; [intros x Nx; rewrite Vs, Vs1; apply V2, Nx|]. split; [intros x y Kx Ly; rewrite Vs, Vs1; apply V; assumption|].
  split.
  - intros x y (Lx & _) Ly. rewrite Ns by auto using live1. rewrite Ns1 by auto using live1. destruct (SM x y) as (_ & _ & ->).
    rewrite (order Ecl x y Lx Ly). rewrite Ecl. reflexivity.
  - intros TA _. exists (Z.lor (tag m k1 j1) (tag m k (inxt2 i))), (Z.lor (tag m k2 j2) (tag m l (iprv2 j))),
      (Z.max (edg m k1 j1) (edg m k (inxt2 i))), (Z.max (edg m k2 j2) (edg m l (iprv2 j))).
    split; intros x y (Lx & _) Ly; rewrite Ecl; cbn [andb]; rewrite <- (order2 Ecl x y Lx Ly);
      [rewrite Ts by auto using live1|rewrite Gs by auto using live1]; destruct (at2 k2 j2 x y); try reflexivity;
      (destruct (Z.eqb_spec (nb m l (iprv2 j)) (3 * x + y)) as [E|]).
    + destruct (excl Ecl x y Lx Ly E) as [X1 X2]. rewrite Ts1 by auto using live1. rewrite at2_dec_false by exact X1.
      destruct (Z.eqb_spec (nb m k (inxt2 i)) (3 * x + y)); [contradiction|]. destruct (SM x y) as (-> & _).
      destruct (agree_at l (iprv2 j) x y TA Ll (loc_prv _ Lj) Ly E (live1 _ Lx)) as [-> _]. apply lor_mid.
    + rewrite Ts1 by auto using live1. destruct (SM x y) as (-> & _). destruct (at2 k1 j1 x y); [reflexivity|].
      destruct (Z.eqb_spec (nb m k (inxt2 i)) (3 * x + y)) as [E|]; [|reflexivity].
      destruct (agree_at k (inxt2 i) x y TA Lk (loc_nxt _ Li) Ly E (live1 _ Lx)) as [-> _]. apply lor_mid.
    + destruct (excl Ecl x y Lx Ly E) as [X1 X2]. rewrite Gs1 by auto using live1. rewrite at2_dec_false by exact X1.
      destruct (Z.eqb_spec (nb m k (inxt2 i)) (3 * x + y)); [contradiction|]. destruct (SM x y) as (_ & -> & _).
      destruct (agree_at l (iprv2 j) x y TA Ll (loc_prv _ Lj) Ly E (live1 _ Lx)) as [_ ->]. clear; lia.
    + rewrite Gs1 by auto using live1. destruct (SM x y) as (_ & -> & _). destruct (at2 k1 j1 x y); [reflexivity|].
      destruct (Z.eqb_spec (nb m k (inxt2 i)) (3 * x + y)) as [E|]; [|reflexivity].
      destruct (agree_at k (inxt2 i) x y TA Lk (loc_nxt _ Li) Ly E (live1 _ Lx)) as [_ ->]. clear; lia.
Qed.

Lemma lget0 a bl : lget (a :: bl) 0 = Ret a. Proof. reflexivity. Qed.
Lemma lget1 a b bl : lget (a :: b :: bl) 1 = Ret b. Proof. reflexivity. Qed.
Lemma lget2 a b c bl : lget (a :: b :: c :: bl) 2 = Ret c. Proof. reflexivity. Qed.

(** The write in the neighbour made by [MMG2D_colver3]. *)
Lemma put3 s b t e v : b = 0 \/ intab s (b / 3) ->
  exists s', (if negb (b / 3 =? 0) then a <- set_tag s (b / 3) (b mod 3) t ;; a <- set_edg a (b / 3) (b mod 3) e ;; set_adj a (b / 3) (b mod 3) v
              else Ret s) = Ret s' /\ same_frame s s' /\ (forall x y, vtx s' x y = vtx s x y) /\
  (forall x y, 1 <= x -> loc y -> nb s' x y = if b =? 3 * x + y then v else nb s x y) /\
  (forall x y, 1 <= x -> loc y -> tag s' x y = if b =? 3 * x + y then t else tag s x y) /\
  (forall x y, 1 <= x -> loc y -> edg s' x y = if b =? 3 * x + y then e else edg s x y).
Proof.
  intros H. assert (ME : forall x y, 1 <= x -> loc y -> (b =? 3 * x + y) = negb (b / 3 =? 0) && at2 (b / 3) (b mod 3) x y).
  { intros x y Hx Ly. rewrite at_enc by assumption. reflexivity. }
  destruct (Z.eqb_spec (b / 3) 0) as [E|N]; cbn [negb andb] in *.
  - exists s. split; [reflexivity|]. split; [apply same_refl|]. split; [reflexivity|]. repeat split; intros x y Hx Ly; rewrite ME by assumption; reflexivity.
  - destruct H as [->|H]; [exfalso; apply N; reflexivity|]. pose proof (loc_mod b) as Lm.
    rewrite set_tag_ok by exact H. cbn [bind]. rewrite set_edg_ok by intabs. cbn [bind]. rewrite set_adj_ok by (assumption || intabs).
    eexists. split; [reflexivity|]. split; [frames|]. split; [intros; views; reflexivity|].
    split; [|split]; intros x y Hx Ly; rewrite ME by assumption; views; reflexivity.
Qed.

Lemma k2_neq (Ecl : cl = true) : k2 <> l /\ k1 <> l.
Proof.
  destruct (cl_all Ecl) as (Ll & Lj & L2 & Lj2 & Nl & Ek2 & El). split.
  - rewrite Ecl in Hcl. destruct Hcl as (_ & _ & _ & X). exact (nbr_neq m l (inxt2 j) k2 j2 HV Ll (loc_nxt _ Lj) X).
  - intros E. destruct (cl_facts m k i HV Lk Li p p1 p2 Ep1 Ep2 cl l j q k2 j2 Hcl Ecl) as (_ & _ & _ & _ & _ & A & B & C & _ & D & D').
    destruct HN1 as (_ & Lj1 & _ & _ & X). rewrite Op2Proofs.ends_prv, Ep, Ep1 in X by exact Li. cbn in X. rewrite E in X.
    destruct (dist3 m k i HV Lk Li) as (D1 & D2 & D3). rewrite Ep, Ep1 in D1. rewrite Ep1, Ep2 in D2. rewrite Ep2, Ep in D3. pose proof (qp m k i p cl l j q k2 j2 Hcl Ecl) as Nq.
    destruct (loc_cases j j1 Lj Lj1) as [EJ|[EJ|EJ]]; rewrite EJ in X; rewrite X in *; inversion A; try inversion B; try inversion C; congruence.
Qed.

Lemma stage3 y3 : cl = true -> loc y3 -> k2 = k1 -> j1 = iprv2 y3 -> j2 = inxt2 y3 -> vtx m k1 y3 = p1 ->
  (forall x, live m x -> has m x p1 -> x = k \/ x = l \/ x = k1) ->
  exists m', colver3 m [3 * k + inxt2 i; 3 * k1 + y3; 3 * l + iprv2 j] = Ret (1, m') /\ contracted True m'.
Proof.
  intros Ecl Ly3 E21 Ej1 Ej2 Ev3 Cov. destruct k1_neq as (Nk1 & L1 & Lj1 & Ek1).
  destruct (cl_all Ecl) as (Ll & Lj & L2 & Lj2 & Nl & Ek2 & El). destruct (k2_neq Ecl) as [N2l N1l].
  assert (IT : forall x, live m x -> intab m x) by (intros x Lx; apply live_intab; assumption).
  pose proof (IT _ Lk) as Ik. pose proof (IT _ L1) as I1. pose proof (IT _ Ll) as Il.
  pose proof (loc_nxt _ Li) as Lni. pose proof (loc_prv _ Lj) as Lpj. pose proof (loc_nxt _ Ly3) as Lny. pose proof (loc_prv _ Ly3) as Lpy.
  unfold colver3. rewrite lget0, lget1, lget2. cbn [bind]. rewrite !dec_div, !dec_mod by assumption.
  rewrite get_t_ok by exact Ik. cbn [bind]. rewrite get_t_ok by exact Il. cbn [bind].
  change (tv (aget (m_tri m) k) (inxt2 (inxt2 i))) with (vtx m k (inxt2 (inxt2 i))). change (tv (aget (m_tri m) k) (inxt2 i)) with (vtx m k (inxt2 i)).
  change (ttag (aget (m_tri m) l) (iprv2 j)) with (tag m l (iprv2 j)). change (tedg (aget (m_tri m) l) (iprv2 j)) with (edg m l (iprv2 j)).
  change (ttag (aget (m_tri m) k) (inxt2 i)) with (tag m k (inxt2 i)). change (tedg (aget (m_tri m) k) (inxt2 i)) with (edg m k (inxt2 i)).
  rewrite nxt_nxt, Ep1, Ep2 by exact Li. rewrite <- Ej1, <- Ej2 in *.
  assert (NJ : j1 <> j2) by (rewrite Ej1, Ej2; apply not_eq_sym, nxt_neq_prv, Ly3).
  rewrite set_v_ok by exact I1. cbn [bind]. rewrite get_t_ok by intabs. cbn [bind].
  change (ttag (aget (m_tri (pv m k1 y3 p2)) k1) j2) with (tag (pv m k1 y3 p2) k1 j2). change (tedg (aget (m_tri (pv m k1 y3 p2)) k1) j2) with (edg (pv m k1 y3 p2) k1 j2).
  rewrite tag_pv, edg_pv.
  set (T2 := Z.lor (tag m k1 j2) (tag m l (iprv2 j))). set (G2 := Z.max (edg m k1 j2) (edg m l (iprv2 j))).
  rewrite set_tag_ok by intabs. cbn [bind]. rewrite set_edg_ok by intabs. cbn [bind]. rewrite get_t_ok by intabs. cbn [bind].
  match goal with |- context [ttag (aget (m_tri ?mm) k1) j1] => change (ttag (aget (m_tri mm) k1) j1) with (tag mm k1 j1); change (tedg (aget (m_tri mm) k1) j1) with (edg mm k1 j1) end.
  rewrite tag_ped, tag_ptg, tag_pv, edg_ped, edg_ptg, edg_pv. rewrite !at2_i by exact NJ.
  set (T1 := Z.lor (tag m k1 j1) (tag m k (inxt2 i))). set (G1 := Z.max (edg m k1 j1) (edg m k (inxt2 i))).
  rewrite set_tag_ok by intabs. cbn [bind]. rewrite set_edg_ok by intabs. cbn [bind].
  rewrite get_adj_ok by (assumption || intabs). cbn [bind]. rewrite nb_ped, nb_ptg, nb_ped, nb_ptg, nb_pv.
  rewrite set_adj_ok by (assumption || intabs). cbn [bind].
  rewrite get_adj_ok by (assumption || intabs). cbn [bind]. rewrite nb_pa by assumption. rewrite at2_k by (intros X; apply Nk1; congruence). rewrite nb_ped, nb_ptg, nb_ped, nb_ptg, nb_pv.
  rewrite set_adj_ok by (assumption || intabs). cbn [bind].
  rewrite get_t_ok by intabs. cbn [bind].
  match goal with |- context [ttag (aget (m_tri ?mm) k1) j1] => change (ttag (aget (m_tri mm) k1) j1) with (tag mm k1 j1); change (tedg (aget (m_tri mm) k1) j1) with (edg mm k1 j1); set (s1 := mm) end.
  assert (F1 : same_frame m s1) by frames.
  assert (Vw : forall x y, vtx s1 x y = if at2 k1 y3 x y then p2 else vtx m x y) by (intros; unfold s1; views; reflexivity).
  assert (Nw : forall x y, loc y -> nb s1 x y = if at2 k1 j1 x y then nb m k (inxt2 i) else if at2 k1 j2 x y then nb m l (iprv2 j) else nb m x y)
    by (intros; unfold s1; views; reflexivity).
  assert (Tw : forall x y, tag s1 x y = if at2 k1 j1 x y then T1 else if at2 k1 j2 x y then T2 else tag m x y) by (intros; unfold s1; views; reflexivity).
  assert (Gw : forall x y, edg s1 x y = if at2 k1 j1 x y then G1 else if at2 k1 j2 x y then G2 else edg m x y) by (intros; unfold s1; views; reflexivity).
  rewrite Tw, Gw, at2_same.
  destruct (put3 s1 (nb m k (inxt2 i)) T1 G1 (3 * k1 + j1)) as (s2 & E2 & F2 & V2 & N2 & T2v & G2v).
  { destruct k_side as [E|[A B]]; [auto|right]. apply (intab_frame m s1 _ F1), IT, A. }
  rewrite E2. cbn [bind]. assert (IT2 : forall x, live m x -> intab s2 x) by (intros x Lx; apply (intab_frame s1 s2 x F2), (intab_frame m s1 x F1), IT, Lx).
  rewrite get_adj_ok by auto. cbn [bind]. rewrite get_t_ok by auto. cbn [bind].
  change (ttag (aget (m_tri s2) k1) j2) with (tag s2 k1 j2). change (tedg (aget (m_tri s2) k1) j2) with (edg s2 k1 j2).
  rewrite N2, T2v, G2v by auto using live1. rewrite Nw, Tw, Gw by assumption. rewrite at2_same. rewrite !(at2_i k1 j1) by (intros X; apply NJ; congruence).
  pose proof (no_kk2 Ecl) as NKK. rewrite E21 in NKK. destruct (Z.eqb_spec (nb m k (inxt2 i)) (3 * k1 + j2)) as [X|_]; [contradiction|].
  destruct (put3 s2 (nb m l (iprv2 j)) T2 G2 (3 * k1 + j2)) as (s3 & E3 & F3 & V3 & N3 & T3v & G3v).
  { destruct (l_side Ecl) as [E|[A B]]; [auto|right]. apply IT2, A. }
  rewrite E3. cbn [bind].
  assert (ST : stage True s3).
  { assert (F : same_frame m s3) by (eapply same_trans; [exact F1|eapply same_trans; [exact F2|exact F3]]).
    assert (V : forall x y, vtx s3 x y = if at2 k1 y3 x y then p2 else vtx m x y) by (intros; rewrite V3, V2, Vw; reflexivity).
    assert (KSD : at2 k1 j1 k1 j1 = true) by apply at2_same.
    split; [destruct F as (A1 & A2 & A3 & A4 & A5 & A6 & A7); repeat split; cbn; congruence|]. split; [apply (alive_frame _ _ F)|].
    assert (Ap2 : alive m p2) by (rewrite <- Ep2; apply alive_at; auto using loc_prv).
    split.
    { intros x. unfold live. destruct F as (-> & _). change (tv (aget (m_tri s3) x) 0) with (vtx s3 x 0). change (tv (aget (m_tri m) x) 0) with (vtx m x 0).
      rewrite V. destruct (at2_dec k1 y3 x 0) as [(-> & _ & ->)|(_ & ->)]; [|reflexivity].
      destruct Ap2 as [Ap2 _]. destruct L1 as [L1a L1b]. change (tv (aget (m_tri m) k1) 0) with (vtx m k1 0) in L1b. clear - Ap2 L1b. lia. }
    split; [intros x Nx; rewrite V, at2_k; [reflexivity|intros ->; contradiction]|].
    split.
    { intros x y (Lx & Nxk & Nxl) Ly. rewrite V. destruct (at2_dec k1 y3 x y) as [(-> & -> & ->)|(N & ->)]; [rewrite Ev3, Z.eqb_refl; reflexivity|].
      destruct (Z.eqb_spec (vtx m x y) p1) as [E|]; [|reflexivity]. exfalso. destruct (Cov x Lx) as [X|[X|X]]; [exists y; auto|auto|exact (Nxl Ecl X)|].
      apply N. split; [exact X|]. rewrite X in E. exact (p1_at m HV p1 k1 y y3 L1 Ly Ly3 E Ev3). }
    split.
    { intros x y (Lx & _) Ly. rewrite N3, N2, Nw by auto using live1. rewrite Ecl, E21. cbn [andb].
      pose proof (order Ecl x y Lx Ly Z (nb m k (inxt2 i)) (nb m l (iprv2 j)) (nb m x y) (3 * k1 + j1) (3 * k1 + j2)) as OR. rewrite E21 in OR. rewrite <- OR.
      destruct (at2_dec k1 j2 x y) as [(-> & -> & ->)|(N & ->)].
      - rewrite (at2_i k1 j1 k1 j2) by (intros X; apply NJ; congruence). destruct (Z.eqb_spec (nb m l (iprv2 j)) (3 * k1 + j2)) as [E|].
        { exfalso. destruct (l_side Ecl) as [X|[_ X]]; [rewrite X in E; revert E; apply not_eq_sym, enc_pos1; auto using live1|]. apply X. rewrite E, dec_div, dec_mod by assumption. auto. }
        destruct (Z.eqb_spec (nb m k (inxt2 i)) (3 * k1 + j2)); [contradiction|reflexivity].
      - destruct (Z.eqb_spec (nb m l (iprv2 j)) (3 * x + y)); [reflexivity|]. destruct (at2_dec k1 j1 x y) as [(-> & -> & ->)|(N' & ->)]; [|reflexivity].
        destruct (Z.eqb_spec (nb m k (inxt2 i)) (3 * k1 + j1)) as [E|]; [|reflexivity].
        exfalso. destruct k_side as [X|[_ X]]; [rewrite X in E; revert E; apply not_eq_sym, enc_pos1; auto using live1|]. apply X. rewrite E, dec_div, dec_mod by assumption. auto. }
    intros _ _. exists T1, T2, G1, G2. split; intros x y (Lx & _) Ly; [rewrite T3v, T2v, Tw by auto using live1|rewrite G3v, G2v, Gw by auto using live1];
      rewrite Ecl, E21; cbn [andb];
      [pose proof (order2 Ecl x y Lx Ly Z T1 T2 (tag m x y)) as OR|pose proof (order2 Ecl x y Lx Ly Z G1 G2 (edg m x y)) as OR]; rewrite E21 in OR; rewrite <- OR;
      (destruct (Z.eqb_spec (nb m l (iprv2 j)) (3 * x + y)); [destruct (at2 k1 j2 x y); reflexivity|]);
      (destruct (at2_dec k1 j2 x y) as [(-> & -> & ->)|(N & ->)];
        [rewrite (at2_i k1 j1 k1 j2) by (intros X; apply NJ; congruence); destruct (Z.eqb_spec (nb m k (inxt2 i)) (3 * k1 + j2)); [contradiction|reflexivity]|]);
      destruct (at2 k1 j1 x y); destruct (nb m k (inxt2 i) =? 3 * x + y); reflexivity. }
  destruct (stage_finish True s3 ST) as (m' & Em & C). rewrite Ecl in Em. exists m'. split; [exact Em|exact C].
Qed.

Lemma stage2 y3 : cl = false -> loc y3 -> j1 = iprv2 y3 -> vtx m k1 y3 = p1 ->
  (forall x, live m x -> has m x p1 -> x = k \/ x = k1) ->
  exists m', colver2 m [3 * k + inxt2 i; 3 * k1 + y3] = Ret (1, m') /\ contracted (tag m k (iprv2 i) = 0) m'.
Proof.
  intros Ecl Ly3 Ej1 Ev3 Cov. destruct k1_neq as (Nk1 & L1 & Lj1 & Ek1).
  assert (IT : forall x, live m x -> intab m x) by (intros x Lx; apply live_intab; assumption).
  pose proof (IT _ Lk) as Ik. pose proof (IT _ L1) as I1.
  pose proof (loc_nxt _ Li) as Lni. pose proof (loc_prv _ Ly3) as Lpy.
  unfold colver2. rewrite lget0, lget1. cbn [bind]. rewrite !dec_div, !dec_mod by assumption.
  rewrite get_t_ok by exact Ik. cbn [bind].
  change (tv (aget (m_tri m) k) (inxt2 (inxt2 i))) with (vtx m k (inxt2 (inxt2 i))). change (tv (aget (m_tri m) k) (inxt2 i)) with (vtx m k (inxt2 i)).
  change (ttag (aget (m_tri m) k) (inxt2 i)) with (tag m k (inxt2 i)). change (tedg (aget (m_tri m) k) (inxt2 i)) with (edg m k (inxt2 i)).
  rewrite nxt_nxt, Ep1, Ep2 by exact Li. rewrite <- Ej1.
  rewrite set_v_ok by exact I1. cbn [bind]. rewrite get_t_ok by intabs. cbn [bind].
  change (ttag (aget (m_tri (pv m k1 y3 p2)) k1) j1) with (tag (pv m k1 y3 p2) k1 j1). rewrite tag_pv.
  set (T1 := Z.lor (tag m k1 j1) (tag m k (inxt2 i))). set (G1 := edg m k (inxt2 i)).
  rewrite set_tag_ok by intabs. cbn [bind]. rewrite set_edg_ok by intabs. cbn [bind].
  rewrite get_adj_ok by (assumption || intabs). cbn [bind]. rewrite nb_ped, nb_ptg, nb_pv.
  rewrite set_adj_ok by (assumption || intabs). cbn [bind].
  match goal with |- context [set_adj ?mm _ _ _] => set (s1 := mm) end.
  assert (F1 : same_frame m s1) by frames.
  set (b := nb m k (inxt2 i)) in *. pose proof (loc_mod b) as Lb.
  rewrite set_adj_if. 2: { intros X. split; [|exact Lb]. destruct k_side as [E|[A B]]; [fold b in E; rewrite E in X; discriminate|]. apply (intab_frame m s1 _ F1), IT, A. }
  cbn [bind]. set (s3 := paif _ s1 _ _ _).
  assert (F : same_frame m s3) by (eapply same_trans; [exact F1|apply same_paif]).
  assert (V : forall x y, vtx s3 x y = if at2 k1 y3 x y then p2 else vtx m x y) by (intros; unfold s3, s1; views; reflexivity).
  assert (Nw : forall x y, 1 <= x -> loc y -> nb s3 x y = if b =? 3 * x + y then 3 * k1 + j1 else if at2 k1 j1 x y then b else nb m x y).
  { intros x y Hx Ly. unfold s3. rewrite nb_paif by (intros; assumption). rewrite at_enc by assumption. unfold s1. views. reflexivity. }
  assert (Tw : forall x y, tag s3 x y = if at2 k1 j1 x y then T1 else tag m x y) by (intros; unfold s3, s1; views; reflexivity).
  assert (Gw : forall x y, edg s3 x y = if at2 k1 j1 x y then G1 else edg m x y) by (intros; unfold s3, s1; views; reflexivity).
  assert (ST : stage (tag m k (iprv2 i) = 0) s3).
  { split; [destruct F as (A1 & A2 & A3 & A4 & A5 & A6 & A7); repeat split; cbn; congruence|]. split; [apply (alive_frame _ _ F)|].
    assert (Ap2 : alive m p2) by (rewrite <- Ep2; apply alive_at; auto using loc_prv).
    split.
    { intros x. unfold live. destruct F as (-> & _). change (tv (aget (m_tri s3) x) 0) with (vtx s3 x 0). change (tv (aget (m_tri m) x) 0) with (vtx m x 0).
      rewrite V. destruct (at2_dec k1 y3 x 0) as [(-> & _ & ->)|(_ & ->)]; [|reflexivity].
      destruct Ap2 as [Ap2 _]. destruct L1 as [L1a L1b]. change (tv (aget (m_tri m) k1) 0) with (vtx m k1 0) in L1b. clear - Ap2 L1b. lia. }
    split; [intros x Nx; rewrite V, at2_k; [reflexivity|intros ->; contradiction]|].
    split.
    { intros x y (Lx & Nxk & Nxl) Ly. rewrite V. destruct (at2_dec k1 y3 x y) as [(-> & -> & ->)|(N & ->)]; [rewrite Ev3, Z.eqb_refl; reflexivity|].
      destruct (Z.eqb_spec (vtx m x y) p1) as [E|]; [|reflexivity]. exfalso. destruct (Cov x Lx) as [X|X]; [exists y; auto|auto|].
      apply N. split; [exact X|]. rewrite X in E. exact (p1_at m HV p1 k1 y y3 L1 Ly Ly3 E Ev3). }
    assert (NB : b =? 3 * k1 + j1 = false).
    { apply Z.eqb_neq. intros E. destruct k_side as [X|[_ X]]; fold b in X; [rewrite X in E; revert E; apply not_eq_sym, enc_pos1; auto using live1|]. apply X. rewrite E, dec_div, dec_mod by assumption. auto. }
    split.
    { intros x y (Lx & _) Ly. rewrite Nw by auto using live1. rewrite Ecl. cbn [andb]. rewrite (nb_eqb x y k (inxt2 i)) by auto. fold b.
      destruct (at2_dec k1 j1 x y) as [(-> & -> & ->)|(N' & ->)]; [rewrite NB|]; reflexivity. }
    intros TA C. exists T1, 0, G1, 0. rewrite Ecl. cbn [andb].
    assert (ET : T1 = tag m k (inxt2 i)).
    { unfold T1. destruct HN1 as (_ & _ & X & _). destruct (agree_at k (iprv2 i) k1 j1 TA Lk (loc_prv _ Li) Lj1 X (live1 _ L1)) as [-> _]. rewrite C. reflexivity. }
    split; intros x y (Lx & _) Ly; [rewrite Tw|rewrite Gw]; rewrite (nb_eqb x y k (inxt2 i)) by auto; fold b; destruct (at2 k1 j1 x y); cbn [orb]; try reflexivity;
      (destruct (Z.eqb_spec b (3 * x + y)) as [E|]; [|reflexivity]); destruct (agree_at k (inxt2 i) x y TA Lk Lni Ly E (live1 _ Lx)) as [AG1 AG2].
    - rewrite ET. exact AG1.
    - exact AG2. }
  destruct (stage_finish _ s3 ST) as (m' & Em & C). rewrite Ecl in Em. exists m'. split; [exact Em|exact C].
Qed.

(** ** [MMG2D_colver] *)
Lemma moved_loop bl hi : 0 <= hi < Z.of_nat (length bl) ->
  (forall e, In e bl -> exists x y, e = 3 * x + y /\ live m x /\ loc y /\ vtx m x y = p1) ->
  (forall x y, kept x -> loc y -> vtx m x y = p1 -> exists t, 1 <= t <= hi /\ nth_error bl (Z.to_nat t) = Some (3 * x + y)) ->
  exists s, (t2 <- rd (m_ptag m) p2 ;; t1 <- rd (m_ptag m) p1 ;; a <- set_pt m p2 (Z.lor t2 t1) ;;
             for_range 1 hi (fun k m => x <- lget bl k ;; set_v m (x / 3) (x mod 3) p2) a) = Ret s /\ moved s.
Proof.
  intros Hh HE HC.
  assert (Ap1 : alive m p1) by (rewrite <- Ep1; apply alive_at; auto using loc_nxt).
  assert (Ap2 : alive m p2) by (rewrite <- Ep2; apply alive_at; auto using loc_prv).
  pose proof Ap1 as [A1 B1]. pose proof Ap2 as [A2 B2].
  rewrite !rd_ok by lia. cbn [bind]. unfold set_pt. rewrite wr_ok by lia. cbn [bind]. set (s0 := p_pts m _).
  destruct (move_loop s0 bl p2 hi Hh) as (s & Es & F & SM & V1 & V2 & V3).
  { intros e He. destruct (HE e He) as (x & y & -> & Lx & Ly & _). rewrite dec_div by exact Ly. exact (live_intab m x HT Lx). }
  exists s. split; [exact Es|]. change (same_frame (p_pts m (m_ptag s0)) s) in F. pose proof F as (_ & _ & P & _). cbn in P.
  assert (NE : forall x y, loc y -> (live m x -> vtx m x y <> p1) -> vtx s x y = vtx m x y).
  { intros x y Ly H. apply V2; [exact Ly|]. intros t _ X. apply nth_error_In in X. destruct (HE _ X) as (x' & y' & E & Lx' & Ly' & Ev).
    apply enc_dec in E; auto. destruct E as [-> ->]. exact (H Lx' Ev). }
  split; [rewrite P; exact F|]. split; [|split; [|split; [|split]]].
  - intros z [Z1 Z2]. unfold alive. rewrite P. cbn. split; [exact Z1|]. unfold upd. destruct (Z.eqb_spec z p2) as [->|]; [|exact Z2].
    apply (lor_bound _ _ 15); [lia|exact B2|exact B1].
  - intros x. unfold live. pose proof F as (-> & _). change (alen (m_tri (p_pts m (m_ptag s0)))) with (alen (m_tri m)).
    change (tv (aget (m_tri s) x) 0) with (vtx s x 0). change (tv (aget (m_tri m) x) 0) with (vtx m x 0).
    destruct (live_dec m x) as [Lx|Nx].
    + pose proof Lx as [X1 X2]. change (tv (aget (m_tri m) x) 0) with (vtx m x 0) in X2. destruct (V3 x 0) as [->| ->]; [reflexivity|]. clear - A2 X1 X2. lia.
    + rewrite NE; [reflexivity|exact l0|intros X; contradiction].
  - intros x Nx. apply NE; [exact l2|intros X; contradiction].
  - intros x y Kx Ly. destruct (Z.eqb_spec (vtx m x y) p1) as [E|N].
    + apply V1; [exact Ly|]. apply HC; assumption.
    + apply NE; [exact Ly|]. intros _. exact N.
  - intros x y. exact (SM x y).
Qed.

Lemma run_closed bl y1 y2 : cl = true -> (3 <= length bl)%nat -> loc y1 -> j1 = iprv2 y1 -> loc y2 -> j2 = inxt2 y2 ->
  lget bl 0 = Ret (3 * k + inxt2 i) -> lget bl 1 = Ret (3 * k1 + y1) -> lget bl (Z.of_nat (length bl) - 2) = Ret (3 * k2 + y2) ->
  lget bl (Z.of_nat (length bl) - 1) = Ret (3 * l + iprv2 j) ->
  (forall e, In e bl -> exists x y, e = 3 * x + y /\ live m x /\ loc y /\ vtx m x y = p1) ->
  (forall x, live m x -> has m x p1 -> exists y, loc y /\ In (3 * x + y) bl) ->
  exists m', colver m bl = Ret (1, m') /\ contracted True m'.
Proof.
  intros Ecl Hn Ly1 Ej1 Ly2 Ej2 E0 E1 En2 En1 HE HC.
  destruct (cl_all Ecl) as (Ll & Lj & L2 & Lj2 & Nl & Ek2 & El). destruct k1_neq as (Nk1 & L1 & Lj1 & Ek1).
  pose proof (loc_nxt _ Li) as Lni. pose proof (loc_prv _ Lj) as Lpj.
  destruct (moved_loop bl (Z.of_nat (length bl) - 2 + 0)) as (s0 & Es0 & M0).
  { lia. }
  { exact HE. }
  { intros x y (Lx & Nxk & Nxl) Ly Ev. destruct (HC x Lx) as (y' & Ly' & I); [exists y; auto|].
    destruct (HE _ I) as (x2 & y2' & E & _ & Ly2' & Ev'). apply enc_dec in E; auto. destruct E as [<- <-].
    pose proof (p1_at m HV p1 x y y' Lx Ly Ly' Ev Ev') as <-.
    destruct (In_nth_error _ _ I) as (t & Et). assert (Ht : (t < length bl)%nat) by (apply nth_error_Some; congruence).
    exists (Z.of_nat t). rewrite Nat2Z.id. split; [|exact Et].
    assert (t <> O). { intros ->. unfold lget in E0. change (0 <? 0) with false in E0. cbv iota in E0. change (Z.to_nat 0) with O in E0. rewrite Et in E0. injection E0 as E0. apply enc_dec in E0; auto. destruct E0. contradiction. }
    assert (t <> (length bl - 1)%nat).
    { intros ->. unfold lget in En1. destruct (Z.of_nat (length bl) - 1 <? 0); [discriminate|].
      replace (Z.to_nat (Z.of_nat (length bl) - 1)) with (length bl - 1)%nat in En1 by lia. rewrite Et in En1. injection En1 as X.
      apply enc_dec in X; auto. destruct X as [X _]. exact (Nxl Ecl X). }
    lia. }
  destruct (stage_closed s0 Ecl M0) as (s1 & s2 & Es1 & Es2 & ST).
  destruct (stage_finish True s2 ST) as (m' & Em & C). rewrite Ecl in Em. exists m'. split; [|exact C].
  pose proof (live_intab m k HT Lk) as Ik.
  unfold colver. rewrite E0. cbn [bind]. rewrite !dec_div, !dec_mod by assumption. rewrite prv_nxt, nxt_nxt by exact Li.
  rewrite get_t_ok by exact Ik. cbn [bind]. rewrite get_adj_ok by assumption. cbn [bind].
  change (tv (aget (m_tri m) k) (inxt2 i)) with (vtx m k (inxt2 i)). change (tv (aget (m_tri m) k) (iprv2 i)) with (vtx m k (iprv2 i)). rewrite Ep1, Ep2.
  assert (NZ : nb m k i =? 0 = false).
  { rewrite Ecl in Hcl. destruct Hcl as ((_ & _ & X & _) & _). rewrite X. apply Z.eqb_neq. apply enc_pos1; auto using live1. }
  rewrite NZ. change (0 =? 0) with true. cbv iota.
  destruct (rd (m_ptag m) p2) as [t2|] eqn:R2; cbn [bind] in *; [|discriminate Es0].
  destruct (rd (m_ptag m) p1) as [t1|] eqn:R1; cbn [bind] in *; [|discriminate Es0].
  destruct (set_pt m p2 (Z.lor t2 t1)) as [sp|] eqn:RS; cbn [bind] in *; [|discriminate Es0].
  rewrite Es0. cbn [bind]. rewrite E1. cbn [bind]. rewrite !dec_div, !dec_mod by assumption. rewrite <- Ej1, Es1. cbn [bind].
  rewrite En1. cbn [bind]. rewrite En2. cbn [bind]. rewrite !dec_div, !dec_mod by assumption. rewrite <- Ej2, Es2. cbn [bind]. exact Em.
Qed.

Lemma run_open bl y1 : cl = false -> (2 <= length bl)%nat -> loc y1 -> j1 = iprv2 y1 ->
  lget bl 0 = Ret (3 * k + inxt2 i) -> lget bl 1 = Ret (3 * k1 + y1) ->
  (forall e, In e bl -> exists x y, e = 3 * x + y /\ live m x /\ loc y /\ vtx m x y = p1) ->
  (forall x, live m x -> has m x p1 -> exists y, loc y /\ In (3 * x + y) bl) ->
  exists m', colver m bl = Ret (1, m') /\ contracted True m'.
Proof.
  intros Ecl Hn Ly1 Ej1 E0 E1 HE HC.
  destruct k1_neq as (Nk1 & L1 & Lj1 & Ek1). pose proof (loc_nxt _ Li) as Lni.
  destruct (moved_loop bl (Z.of_nat (length bl) - 2 + 1)) as (s0 & Es0 & M0).
  { lia. }
  { exact HE. }
  { intros x y (Lx & Nxk & Nxl) Ly Ev. destruct (HC x Lx) as (y' & Ly' & I); [exists y; auto|].
    destruct (HE _ I) as (x2 & y2' & E & _ & Ly2' & Ev'). apply enc_dec in E; auto. destruct E as [<- <-].
    pose proof (p1_at m HV p1 x y y' Lx Ly Ly' Ev Ev') as <-.
    destruct (In_nth_error _ _ I) as (t & Et). assert (Ht : (t < length bl)%nat) by (apply nth_error_Some; congruence).
    exists (Z.of_nat t). rewrite Nat2Z.id. split; [|exact Et].
    assert (t <> O). { intros ->. unfold lget in E0. change (0 <? 0) with false in E0. cbv iota in E0. change (Z.to_nat 0) with O in E0. rewrite Et in E0. injection E0 as E0. apply enc_dec in E0; auto. destruct E0. contradiction. }
    lia. }
  destruct (stage_open s0 Ecl M0) as (s1 & Es1 & ST).
  destruct (stage_finish True s1 ST) as (m' & Em & C). rewrite Ecl in Em. exists m'. split; [|exact C].
  pose proof (live_intab m k HT Lk) as Ik.
  unfold colver. rewrite E0. cbn [bind]. rewrite !dec_div, !dec_mod by assumption. rewrite prv_nxt, nxt_nxt by exact Li.
  rewrite get_t_ok by exact Ik. cbn [bind]. rewrite get_adj_ok by assumption. cbn [bind].
  change (tv (aget (m_tri m) k) (inxt2 i)) with (vtx m k (inxt2 i)). change (tv (aget (m_tri m) k) (iprv2 i)) with (vtx m k (iprv2 i)). rewrite Ep1, Ep2.
  assert (NZ : nb m k i =? 0 = true).
  { rewrite Ecl in Hcl. rewrite Hcl. reflexivity. }
  rewrite NZ. change (1 =? 0) with false. cbv iota.
  destruct (rd (m_ptag m) p2) as [t2|] eqn:R2; cbn [bind] in *; [|discriminate Es0].
  destruct (rd (m_ptag m) p1) as [t1|] eqn:R1; cbn [bind] in *; [|discriminate Es0].
  destruct (set_pt m p2 (Z.lor t2 t1)) as [sp|] eqn:RS; cbn [bind] in *; [|discriminate Es0].
  rewrite Es0. cbn [bind]. rewrite E1. cbn [bind]. rewrite !dec_div, !dec_mod by assumption. rewrite <- Ej1, Es1. cbn [bind]. exact Em.
Qed.
End Col.
