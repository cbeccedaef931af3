(** The edge split when the edge is shared by two triangles, and the point insertion. *)
From Coq Require Import ZArith List Lia Bool.
From Verif Require Import CBase Op2Model Op2Spec Op2Proofs Op2Split.
Import ListNotations.
Open Scope Z_scope.

Lemma at_enc M x y : 1 <= x -> loc y -> negb (M / 3 =? 0) && at2 (M / 3) (M mod 3) x y = (M =? 3 * x + y).
Proof.
  intros Hx Ly. destruct (Z.eqb_spec M (3 * x + y)) as [->|N].
  - rewrite dec_div, dec_mod by exact Ly. rewrite at2_same. destruct (Z.eqb_spec x 0); [lia|reflexivity].
  - rewrite at2_dec_false; [apply andb_false_r|]. intros [-> ->]. apply N. pose proof (Z.div_mod M 3). lia.
Qed.

Lemma enc_pos1 x y : 1 <= x -> loc y -> 3 * x + y <> 0.
Proof. unfold loc. lia. Qed.

Lemma nb_self m x y y' : vertices_ok m -> oriented m -> adjacent m -> live m x -> loc y -> loc y' -> nb m x y <> 3 * x + y'.
Proof.
  intros V O A Lx Ly Ly' E. destruct (nbr_of m x y O A Lx Ly) as (z & w & H); [rewrite E; apply (enc_pos m); assumption|].
  apply (nbr_neq _ _ _ _ _ V Lx Ly H). destruct H as (_ & Lw & E' & _). rewrite E in E'. apply enc_dec in E'; try assumption. intuition.
Qed.

Lemma nb_sym m x y z w : oriented m -> adjacent m -> live m x -> loc y -> live m z -> loc w -> nb m x y = 3 * z + w -> nb m z w = 3 * x + y.
Proof.
  intros O A Lx Ly Lz Lw E. destruct (nbr_of m x y O A Lx Ly) as (z' & w' & _ & Lw' & E1 & E2 & _); [rewrite E; apply (enc_pos m); assumption|].
  rewrite E in E1. apply enc_dec in E1; try assumption. destruct E1 as [-> ->]. exact E2.
Qed.

Section Split1bIn.
Variables (m : mesh) (k i l j ip p a b q : Z).
Hypothesis HT : tables_ok m.
Hypothesis HV : vertices_ok m.
Hypothesis HO : oriented m.
Hypothesis HA : adjacent m.
Hypothesis Lk : live m k.
Hypothesis Li : loc i.
Hypothesis HN : nbr m k i l j.
Hypothesis Aip : alive m ip.
Hypothesis Hip : forall x y, live m x -> loc y -> vtx m x y <> ip.
Hypothesis Ep : vtx m k i = p.
Hypothesis Ea : vtx m k (inxt2 i) = a.
Hypothesis Eb : vtx m k (iprv2 i) = b.
Hypothesis Eq : vtx m l j = q.
Hypothesis Npq : p <> q.

Lemma split1b_in :
  exists r m', split1b m k i ip = Ret (r, m') /\ m_ptag m' = m_ptag m /\
  ((r = 0 /\ (m_nil m = 0 \/ vtx m (m_nil m) 2 = 0)) \/
   (r = 1 /\ conforming m' /\ (tags_agree m -> tags_agree m') /\
    exists e f, ~ live m e /\ ~ live m f /\ e <> f /\ (forall x, live m' x <-> live m x \/ x = e \/ x = f) /\
      tri_at m' k i p a ip /\ tri_at m' e i p ip b /\ tri_at m' l j q ip a /\ tri_at m' f j q b ip /\
      (forall x y, live m x -> x <> k -> x <> l -> loc y -> vtx m' x y = vtx m x y))).
Proof.
  pose proof HN as (Ll & Lj & E3 & E4 & _). pose proof (nbr_neq _ _ _ _ _ HV Lk Li HN) as Nlk.
  destruct (nbr_verts _ _ _ _ _ Li HN) as [Vb Va].
  destruct (first_half m k i ip HT HV HO HA Lk Li Aip Hip) as (e & mv & m1 & E1 & S1 & Z1 & H). unfold split1b. rewrite E1. cbn [bind].
  destruct (Z.eqb_spec e 0) as [E0|Ne0].
  { exists 0, m1. split; [reflexivity|]. split; [apply S1|]. left. auto. }
  destruct (H Ne0) as (m2 & E2 & Nle & Be & T2 & Ga & P2 & Q2 & Q1 & L2 & V2 & G2 & D2 & N2). clear H.
  rewrite Ga, E3. cbn [bind]. rewrite dec_div, dec_mod by exact Lj. rewrite E2. cbn [bind].
  assert (l =? 0 = false) as -> by (apply Z.eqb_neq; destruct Ll as [B _]; clear - B; lia).
  pose proof (loc_nxt _ Li) as Li1. pose proof (loc_prv _ Li) as Li2.
  pose proof (nxt_neq _ Li) as X1. pose proof (prv_neq _ Li) as X2. pose proof (nxt_neq_prv _ Li) as X3.
  pose proof (loc_nxt _ Lj) as Lj1. pose proof (loc_prv _ Lj) as Lj2.
  pose proof (nxt_neq _ Lj) as Y1. pose proof (prv_neq _ Lj) as Y2. pose proof (nxt_neq_prv _ Lj) as Y3.
  assert (Nke : k <> e) by (intros ->; contradiction). assert (Nlle : l <> e) by (intros ->; contradiction).
  destruct (newElt_re_ok m2 T2) as (f & mv2 & m3 & E5 & S3 & T3 & R3). rewrite E5. cbn [bind].
  destruct (Z.eqb_spec f 0) as [F0|Nf0].
  { exists 0, m3. split; [reflexivity|]. split; [destruct S3 as (_ & -> & _); exact P2|]. left. split; [reflexivity|].
    destruct (Z.eq_dec (m_nil m) 0) as [|Nn]; [left; assumption|right]. destruct (Q1 Nn) as [_ Q3].
    destruct (Z.eq_dec (vtx m (m_nil m) 2) 0) as [|Nn2]; [assumption|]. exfalso.
    assert (Nm2 : m_nil m2 <> 0) by congruence. destruct (R3 Nm2) as (R4 & _). congruence. }
  destruct T3 as [T3|T3]; [contradiction|].
  pose proof S3 as (L3 & P3 & V3 & N3). pose proof T3 as (_ & _ & _ & _ & _ & _ & _ & Bf & Nf3).
  assert (Nf2 : ~ live m2 f) by (intros X; apply Nf3, L3, X).
  assert (Nfl : ~ live m f) by (intros X; apply Nf2, L2; auto).
  assert (Nef : e <> f) by (intros ->; apply Nf2, L2; auto).
  assert (Nkf : k <> f) by (intros ->; contradiction). assert (Nllf : l <> f) by (intros ->; contradiction).
  assert (Lk2 : live m2 k) by (apply L2; auto). assert (Ll2 : live m2 l) by (apply L2; auto). assert (Le2 : live m2 e) by (apply L2; auto).
  assert (Ll3 : live m3 l) by (apply L3, Ll2).
  assert (V2l : forall y, loc y -> vtx m2 l y = vtx m l y).
  { intros y Ly. rewrite V2 by assumption. destruct (Z.eqb_spec l e); [contradiction|]. rewrite at2_k by exact Nlk. reflexivity. }
  set (M := nb m2 l (iprv2 j)).
  assert (EM : M = if nb m l (iprv2 j) =? 3 * k + inxt2 i then 3 * e + inxt2 i else nb m l (iprv2 j)).
  { unfold M. rewrite N2 by assumption. destruct (Z.eqb_spec l e); [contradiction|]. rewrite at2_k by exact Nlk. reflexivity. }
  assert (EM3 : nb m3 l (iprv2 j) = M) by (apply N3; assumption).
  destruct (half_use m3 l f (iprv2 j) (inxt2 j) ip T3 Ll3 Lj2 Lj1 (not_eq_sym Y3)) as (m4 & E6 & F4 & T4 & L4 & V4 & G4 & D4 & N4).
  { intros y Ly. destruct (V3 l y Ll2) as (-> & _). rewrite V2l by exact Ly. apply pos_vtx; assumption. }
  { destruct Aip as [B _]. clear - B. lia. }
  { rewrite EM3, EM. destruct (Z.eqb_spec (nb m l (iprv2 j)) (3 * k + inxt2 i)).
    - right. rewrite dec_div by assumption. split; [apply L3, Le2|congruence].
    - destruct (nb_read m l (iprv2 j) HO HA Ll Lj2) as [[_ X]|X]; [left; exact X|right].
      split; [apply L3, L2; left; apply X|exact (nbr_neq _ _ _ _ _ HV Ll Lj2 X)]. }
  rewrite E6. cbn [bind]. rewrite EM3 in N4.
  assert (L4' : forall x, live m4 x <-> live m x \/ x = e \/ x = f) by (intros x; rewrite L4, L3, L2; apply or_assoc).
  assert (Ie4 : intab m4 e) by (apply live_intab; [exact T4|apply L4'; auto]).
  assert (If4 : intab m4 f) by (apply live_intab; [exact T4|apply L4'; auto]).
  rewrite set_adj_ok by assumption. cbn [bind]. rewrite set_adj_ok by (assumption || intabs). cbn [bind].
  set (m6 := pa _ f j _).
  assert (F6 : same_frame m4 m6) by (unfold m6; frames).
  assert (V6 : forall x y, vtx m6 x y = vtx m4 x y) by reflexivity.
  assert (L6 : forall x, live m6 x <-> live m x \/ x = e \/ x = f) by exact L4'.
  assert (T6 : tables_ok m6) by (apply (tables_frame m4 m6); try assumption; intros; reflexivity).
  assert (G6 : forall x y, tag m6 x y = tag m4 x y) by reflexivity.
  assert (D6 : forall x y, edg m6 x y = edg m4 x y) by reflexivity.
  assert (N6 : forall x y, loc y -> nb m6 x y = if at2 f j x y then 3 * e + i else if at2 e i x y then 3 * f + j else nb m4 x y).
  { intros x y Ly. unfold m6. views. reflexivity. }
  assert (P6 : m_ptag m6 = m_ptag m) by (destruct F6 as (_ & _ & -> & _), F4 as (_ & _ & -> & _); congruence).
  clearbody m6.
  (* views in terms of m *)
  assert (LX2 : forall x, live m x -> live m2 x) by (intros; apply L2; auto).
  assert (NX : forall x, live m x -> x <> e /\ x <> f) by (intros x Lx; split; intros ->; contradiction).
  assert (Vk : tri_at m6 k i p a ip).
  { unfold tri_at. rewrite !V6, !V4. destruct (Z.eqb_spec k f); [contradiction|]. rewrite !(at2_k l) by congruence.
    destruct (V3 k i Lk2) as (-> & _), (V3 k (inxt2 i) Lk2) as (-> & _), (V3 k (iprv2 i) Lk2) as (-> & _).
    rewrite !V2 by assumption. destruct (Z.eqb_spec k e); [contradiction|].
    rewrite (at2_i k (iprv2 i) k i), (at2_i k (iprv2 i) k (inxt2 i)), at2_same by congruence. auto. }
  assert (Ve : tri_at m6 e i p ip b).
  { unfold tri_at. rewrite !V6, !V4. destruct (Z.eqb_spec e f); [contradiction|]. rewrite !(at2_k l) by congruence.
    destruct (V3 e i Le2) as (-> & _), (V3 e (inxt2 i) Le2) as (-> & _), (V3 e (iprv2 i) Le2) as (-> & _).
    rewrite !V2 by assumption. rewrite !Z.eqb_refl.
    destruct (Z.eqb_spec i (inxt2 i)); [congruence|]. destruct (Z.eqb_spec (iprv2 i) (inxt2 i)); [congruence|]. auto. }
  assert (Vl : tri_at m6 l j q ip a).
  { unfold tri_at. rewrite !V6, !V4. destruct (Z.eqb_spec l f); [contradiction|].
    rewrite (at2_i l (inxt2 j) l j), (at2_i l (inxt2 j) l (iprv2 j)), at2_same by congruence.
    destruct (V3 l j Ll2) as (-> & _), (V3 l (iprv2 j) Ll2) as (-> & _). rewrite !V2l by assumption. split; [exact Eq|]. split; [reflexivity|congruence]. }
  assert (Vf : tri_at m6 f j q b ip).
  { unfold tri_at. rewrite !V6, !V4, !Z.eqb_refl. destruct (Z.eqb_spec j (iprv2 j)); [congruence|].
    destruct (Z.eqb_spec (inxt2 j) (iprv2 j)); [congruence|].
    destruct (V3 l j Ll2) as (-> & _), (V3 l (inxt2 j) Ll2) as (-> & _). rewrite !V2l by assumption. split; [exact Eq|]. split; [congruence|reflexivity]. }
  assert (Vo : forall x y, live m x -> x <> k -> x <> l -> loc y -> vtx m6 x y = vtx m x y).
  { intros x y Lx Nx Nx' Ly. destruct (NX x Lx) as [Nxe Nxf]. rewrite V6, V4. destruct (Z.eqb_spec x f); [contradiction|].
    rewrite at2_k by exact Nx'. destruct (V3 x y (LX2 x Lx)) as (-> & _). rewrite V2 by auto.
    destruct (Z.eqb_spec x e); [contradiction|]. rewrite at2_k by exact Nx. reflexivity. }
  (* adjacency of an old triangle *)
  assert (NA : forall x y, live m x -> loc y -> ~ (x = l /\ y = iprv2 j) -> ~ (x = k /\ y = inxt2 i) -> nb m6 x y = psi2 k i l j e f (nb m x y)).
  { intros x y Lx Ly U1 U2. destruct (NX x Lx) as [Nxe Nxf]. rewrite N6, N4 by assumption.
    rewrite (at2_k f) by exact Nxf. rewrite (at2_k e) by exact Nxe. destruct (Z.eqb_spec x f); [contradiction|].
    rewrite at2_dec_false by exact U1. rewrite at_enc by (assumption || apply Lx). rewrite N3 by auto. rewrite N2 by auto.
    destruct (Z.eqb_spec x e); [contradiction|]. rewrite (at2_dec_false k) by exact U2. unfold psi2. rewrite EM.
    destruct (Z.eqb_spec (nb m x y) (3 * k + inxt2 i)) as [A1|A1].
    - destruct (Z.eqb_spec (nb m l (iprv2 j)) (3 * k + inxt2 i)) as [A2|A2].
      + destruct (Z.eqb_spec (3 * e + inxt2 i) (3 * x + y)) as [A3|A3]; [|reflexivity]. apply enc_dec in A3; try assumption. destruct A3; congruence.
      + destruct (Z.eqb_spec (nb m l (iprv2 j)) (3 * x + y)) as [A3|A3]; [|reflexivity]. exfalso.
        apply (nb_sym m l (iprv2 j) x y HO HA Ll Lj2 Lx Ly) in A3. rewrite A1 in A3. apply enc_dec in A3; try assumption. destruct A3; congruence.
    - destruct (Z.eqb_spec (nb m x y) (3 * l + iprv2 j)) as [A4|A4].
      + apply (nb_sym m x y l (iprv2 j) HO HA Lx Ly Ll Lj2) in A4. rewrite A4.
        destruct (Z.eqb_spec (3 * x + y) (3 * k + inxt2 i)) as [A3|A3]; [apply enc_dec in A3; try assumption; tauto|]. rewrite Z.eqb_refl. reflexivity.
      + destruct (Z.eqb_spec (nb m l (iprv2 j)) (3 * k + inxt2 i)) as [A2|A2].
        * destruct (Z.eqb_spec (3 * e + inxt2 i) (3 * x + y)) as [A3|A3]; [|reflexivity]. apply enc_dec in A3; try assumption. destruct A3; congruence.
        * destruct (Z.eqb_spec (nb m l (iprv2 j)) (3 * x + y)) as [A3|A3]; [|reflexivity]. exfalso.
          apply (nb_sym m l (iprv2 j) x y HO HA Ll Lj2 Lx Ly) in A3. contradiction. }
  assert (PS : forall z w, live m z -> loc w -> ~ (z = k /\ w = inxt2 i) -> ~ (z = l /\ w = iprv2 j) -> psi2 k i l j e f (3 * z + w) = 3 * z + w).
  { intros z w Lz Lw U1 U2. unfold psi2. destruct (Z.eqb_spec (3 * z + w) (3 * k + inxt2 i)) as [A1|A1]; [apply enc_dec in A1; tauto|].
    destruct (Z.eqb_spec (3 * z + w) (3 * l + iprv2 j)) as [A2|A2]; [apply enc_dec in A2; tauto|]. reflexivity. }
  assert (Nk : nb m6 k i = 3 * l + j /\ nb m6 k (inxt2 i) = 3 * e + iprv2 i /\ nb m6 k (iprv2 i) = psi2 k i l j e f (nb m k (iprv2 i))).
  { split; [|split].
    - rewrite NA, E3 by (assumption || (intros [? ?]; congruence)). apply PS; assumption || (intros [? ?]; congruence).
    - rewrite N6, N4 by assumption. rewrite (at2_k f), (at2_k e), (at2_k l) by congruence. destruct (Z.eqb_spec k f); [contradiction|].
      rewrite at_enc by (assumption || apply Lk). rewrite N3, N2 by assumption. destruct (Z.eqb_spec k e); [contradiction|]. rewrite at2_same, EM.
      destruct (Z.eqb_spec (nb m l (iprv2 j)) (3 * k + inxt2 i)) as [A2|A2].
      + destruct (Z.eqb_spec (3 * e + inxt2 i) (3 * k + inxt2 i)) as [A3|A3]; [|reflexivity]. apply enc_dec in A3; try assumption. destruct A3; congruence.
      + destruct (Z.eqb_spec (nb m l (iprv2 j)) (3 * k + inxt2 i)); [contradiction|reflexivity].
    - apply NA; assumption || (intros [? ?]; congruence). }
  assert (Nel : nb m6 e i = 3 * f + j /\ nb m6 e (inxt2 i) = psi2 k i l j e f (nb m k (inxt2 i)) /\ nb m6 e (iprv2 i) = 3 * k + inxt2 i).
  { split; [|split].
    - rewrite N6 by assumption. rewrite (at2_k f), at2_same by congruence. reflexivity.
    - rewrite N6, N4 by assumption. rewrite (at2_k f), (at2_i e), (at2_k l) by congruence. destruct (Z.eqb_spec e f); [contradiction|].
      rewrite at_enc by assumption. rewrite N3, N2 by assumption. rewrite Z.eqb_refl. destruct (Z.eqb_spec (inxt2 i) (iprv2 i)); [contradiction|].
      rewrite EM. unfold psi2. destruct (Z.eqb_spec (nb m k (inxt2 i)) (3 * k + inxt2 i)) as [A0|A0]; [apply nb_self in A0; tauto|].
      destruct (Z.eqb_spec (nb m l (iprv2 j)) (3 * k + inxt2 i)) as [A2|A2].
      + rewrite Z.eqb_refl. apply (nb_sym m l (iprv2 j) k (inxt2 i) HO HA Ll Lj2 Lk Li1) in A2. rewrite A2, Z.eqb_refl. reflexivity.
      + destruct (Z.eqb_spec (nb m k (inxt2 i)) (3 * l + iprv2 j)) as [A4|A4].
        * apply (nb_sym m k (inxt2 i) l (iprv2 j) HO HA Lk Li1 Ll Lj2) in A4. contradiction.
        * destruct (Z.eqb_spec (nb m l (iprv2 j)) (3 * e + inxt2 i)) as [A5|A5]; [|reflexivity].
          exfalso. destruct (HA l (iprv2 j) Ll Lj2) as [[A6 _]|(z & w & Lz & Lw & A6 & _)]; rewrite A5 in A6; [exact (enc_pos1 _ _ Be Li1 A6)|].
          apply enc_dec in A6; try assumption. destruct A6. congruence.
    - rewrite N6, N4 by assumption. rewrite (at2_k f), (at2_i e), (at2_k l) by congruence. destruct (Z.eqb_spec e f); [contradiction|].
      rewrite at_enc by assumption. rewrite N3, N2 by assumption. rewrite !Z.eqb_refl. rewrite EM.
      destruct (Z.eqb_spec (nb m l (iprv2 j)) (3 * k + inxt2 i)) as [A2|A2].
      + destruct (Z.eqb_spec (3 * e + inxt2 i) (3 * e + iprv2 i)) as [A3|A3]; [|reflexivity]. apply enc_dec in A3; try assumption. destruct A3; congruence.
      + destruct (Z.eqb_spec (nb m l (iprv2 j)) (3 * e + iprv2 i)) as [A5|A5]; [|reflexivity].
        exfalso. destruct (HA l (iprv2 j) Ll Lj2) as [[A6 _]|(z & w & Lz & Lw & A6 & _)]; rewrite A5 in A6; [exact (enc_pos1 _ _ Be Li2 A6)|].
        apply enc_dec in A6; try assumption. destruct A6. congruence. }
  assert (Nl : nb m6 l j = 3 * k + i /\ nb m6 l (inxt2 j) = psi2 k i l j e f (nb m l (inxt2 j)) /\ nb m6 l (iprv2 j) = 3 * f + inxt2 j).
  { split; [|split].
    - rewrite NA, E4 by (assumption || (intros [? ?]; congruence)). apply PS; assumption || (intros [? ?]; congruence).
    - apply NA; assumption || (intros [? ?]; congruence).
    - rewrite N6, N4 by assumption. rewrite (at2_k f), (at2_k e), at2_same by congruence. destruct (Z.eqb_spec l f); [contradiction|reflexivity]. }
  assert (Nfa : nb m6 f j = 3 * e + i /\ nb m6 f (inxt2 j) = 3 * l + iprv2 j /\ nb m6 f (iprv2 j) = psi2 k i l j e f (nb m l (iprv2 j))).
  { split; [|split].
    - rewrite N6 by assumption. rewrite at2_same. reflexivity.
    - rewrite N6, N4 by assumption. rewrite (at2_i f), (at2_k e), !Z.eqb_refl by congruence. reflexivity.
    - rewrite N6, N4 by assumption. rewrite (at2_i f), (at2_k e), Z.eqb_refl by congruence. destruct (Z.eqb_spec (iprv2 j) (inxt2 j)); [congruence|].
      rewrite EM3, EM. unfold psi2. destruct (Z.eqb_spec (nb m l (iprv2 j)) (3 * k + inxt2 i)); [reflexivity|].
      destruct (Z.eqb_spec (nb m l (iprv2 j)) (3 * l + iprv2 j)) as [A0|A0]; [apply nb_self in A0; tauto|reflexivity]. }
  exists 1, m6. split; [reflexivity|]. split; [exact P6|]. right. split; [reflexivity|].
  assert (TG : forall x y, live m6 x -> tag m6 x y = (if x =? f then (if y =? inxt2 j then 0 else tag m l y)
      else if at2 l (iprv2 j) x y then 0 else if x =? e then (if y =? iprv2 i then 0 else tag m k y) else if at2 k (inxt2 i) x y then 0 else tag m x y) /\
    edg m6 x y = (if x =? f then (if y =? inxt2 j then 0 else edg m l y)
      else if at2 l (iprv2 j) x y then 0 else if x =? e then (if y =? iprv2 i then 0 else edg m k y) else if at2 k (inxt2 i) x y then 0 else edg m x y)).
  { intros x y Lx. rewrite G6, D6, G4, D4. apply L6 in Lx.
    assert (TL : tag m3 l y = tag m l y /\ edg m3 l y = edg m l y).
    { destruct (V3 l y Ll2) as (_ & -> & ->). rewrite G2, D2 by assumption. destruct (Z.eqb_spec l e); [contradiction|]. rewrite at2_k by exact Nlk. auto. }
    destruct (Z.eqb_spec x f) as [->|Nxf]; [destruct (y =? inxt2 j); [auto|exact TL]|].
    destruct (at2 l (iprv2 j) x y); [auto|]. assert (Lx2 : live m2 x) by (apply L2; tauto).
    destruct (V3 x y Lx2) as (_ & -> & ->). rewrite G2, D2 by exact Lx2. auto. }
  assert (No : forall x y, live m x -> x <> k -> x <> l -> loc y -> nb m6 x y = psi2 k i l j e f (nb m x y)).
  { intros x y Lx U1 U2 Ly. apply NA; try assumption; intros [? ?]; congruence. }
  assert (Le6 : live m6 e) by (apply L6; auto). assert (Lf6 : live m6 f) by (apply L6; auto).
  assert (Lk6 : live m6 k) by (apply L6; auto). assert (Ll6 : live m6 l) by (apply L6; auto).
  pose proof (sp2_oriented m m6 k i l j e f ip p a b q HV HO Lk Li HN Nle Nfl Nef Hip Ep Ea Eb Eq Npq L6 Vo Vk Ve Vl Vf No Nk Nel Nl Nfa) as O6.
  pose proof (sp2_adjacent m m6 k i l j e f ip p a b q HV HO HA Lk Li HN Nle Nfl Nef Hip Ep Ea Eb Eq Npq L6 Vo Vk Ve Vl Vf No Nk Nel Nl Nfa) as A6.
  split; [|split].
  - split; [exact T6|]. split; [|split; assumption].
    assert (AA : forall z, alive m z -> alive m6 z) by (intros z Hz; unfold alive; rewrite P6; exact Hz).
    destruct (dist3 m k i HV Lk Li) as (B1 & B3 & B4). pose proof (Hip k i Lk Li). pose proof (Hip k _ Lk Li1). pose proof (Hip k _ Lk Li2).
    pose proof (alive_at m k i HV Lk Li). pose proof (alive_at m k _ HV Lk Li1). pose proof (alive_at m k _ HV Lk Li2).
    destruct (dist3 m l j HV Ll Lj) as (C1 & C3 & C4). pose proof (Hip l j Ll Lj). pose proof (alive_at m l j HV Ll Lj).
    intros x Lx. destruct (Z.eq_dec x k) as [->|Nxk].
    { destruct Vk as (K1 & K2 & K3). apply (vertices_at m6 k i Li); rewrite ?K1, ?K2, ?K3; try apply AA; congruence. }
    destruct (Z.eq_dec x l) as [->|Nxl].
    { destruct Vl as (K1 & K2 & K3). apply (vertices_at m6 l j Lj); rewrite ?K1, ?K2, ?K3; try apply AA; congruence. }
    apply L6 in Lx. destruct Lx as [Lx|[->| ->]].
    + assert (Y : forall y, loc y -> vtx m6 x y = vtx m x y) by (intros; apply Vo; assumption).
      rewrite !Y by (unfold loc; auto). destruct (HV x Lx) as (B5 & B6 & B7 & B8). auto 10.
    + destruct Ve as (K1 & K2 & K3). apply (vertices_at m6 e i Li); rewrite ?K1, ?K2, ?K3; try apply AA; congruence.
    + destruct Vf as (K1 & K2 & K3). apply (vertices_at m6 f j Lj); rewrite ?K1, ?K2, ?K3; try apply AA; congruence.
  - apply (sp2_tags m m6 k i l j e f ip p a b q HV HO HA Lk Li HN Nle Nfl Nef Hip Ep Ea Eb Eq Npq L6 Vo Vk Ve Vl Vf No Nk Nel Nl Nfa).
    + intros x y Lx Ly F. destruct (TG x y Lx) as [-> ->].
      destruct (old2 m m6 k i l j e f ip p a b q Li HN L6 Vk Ve Vl Vf Nk Nel Nl Nfa x y Lx Ly F) as [(Lx0 & U1 & U2)|[(-> & ->)|[(-> & ->)|[(-> & ->)|(-> & ->)]]]]; unfold ph2.
      * destruct (NX x Lx0) as [Nxe Nxf]. destruct (Z.eqb_spec x f); [contradiction|]. destruct (Z.eqb_spec x e); [contradiction|].
        rewrite !at2_k by congruence. auto.
      * destruct (Z.eqb_spec k f); [contradiction|]. destruct (Z.eqb_spec k e); [contradiction|].
        rewrite (at2_k l), (at2_i k) by congruence. auto.
      * destruct (Z.eqb_spec e f); [contradiction|]. rewrite Z.eqb_refl. rewrite (at2_k l) by congruence.
        destruct (Z.eqb_spec (inxt2 i) (iprv2 i)); [contradiction|]. auto.
      * destruct (Z.eqb_spec l f); [contradiction|]. destruct (Z.eqb_spec l e); [contradiction|].
        rewrite (at2_i l), (at2_k k) by congruence. auto.
      * rewrite Z.eqb_refl. destruct (Z.eqb_spec f e); [congruence|]. destruct (Z.eqb_spec (iprv2 j) (inxt2 j)); [congruence|]. auto.
    + destruct (TG k (inxt2 i) Lk6) as [-> ->], (TG e (iprv2 i) Le6) as [-> ->], (TG l (iprv2 j) Ll6) as [-> ->], (TG f (inxt2 j) Lf6) as [-> ->].
      rewrite !Z.eqb_refl, !at2_same.
      destruct (Z.eqb_spec k f); [contradiction|]. destruct (Z.eqb_spec k e); [contradiction|]. destruct (Z.eqb_spec e f); [contradiction|].
      destruct (Z.eqb_spec l f); [contradiction|]. rewrite !(at2_k l) by congruence. auto 10.
    + destruct (TG k i Lk6) as [-> ->], (TG e i Le6) as [-> ->], (TG l j Ll6) as [-> ->], (TG f j Lf6) as [-> ->].
      rewrite !Z.eqb_refl.
      destruct (Z.eqb_spec k f); [contradiction|]. destruct (Z.eqb_spec k e); [contradiction|]. destruct (Z.eqb_spec e f); [contradiction|].
      destruct (Z.eqb_spec l f); [contradiction|]. destruct (Z.eqb_spec l e); [contradiction|].
      destruct (Z.eqb_spec i (iprv2 i)); [congruence|]. destruct (Z.eqb_spec j (inxt2 j)); [congruence|].
      rewrite (at2_k l _ k), (at2_k l _ e), (at2_i l _ l j), (at2_i k _ k i), (at2_k k _ l) by congruence. auto 10.
  - exists e, f. auto 15.
Qed.
End Split1bIn.

(** ** Point insertion in a triangle *)

Section Bar.
Variables (m m' : mesh) (k e f ip p a b : Z).
Hypothesis HV : vertices_ok m.
Hypothesis HO : oriented m.
Hypothesis HA : adjacent m.
Hypothesis Lk : live m k.
Hypothesis Ne : ~ live m e.
Hypothesis Nf : ~ live m f.
Hypothesis Nef : e <> f.
Hypothesis Hip : forall x y, live m x -> loc y -> vtx m x y <> ip.
Hypothesis Ep : vtx m k 0 = p.
Hypothesis Ea : vtx m k 1 = a.
Hypothesis Eb : vtx m k 2 = b.
Hypothesis HL : forall x, live m' x <-> live m x \/ x = e \/ x = f.
Hypothesis Vo : forall x y, live m x -> x <> k -> loc y -> vtx m' x y = vtx m x y.
Hypothesis Vk : vtx m' k 0 = p /\ vtx m' k 1 = ip /\ vtx m' k 2 = b.
Hypothesis Ve : vtx m' e 0 = p /\ vtx m' e 1 = a /\ vtx m' e 2 = ip.
Hypothesis Vf : vtx m' f 0 = ip /\ vtx m' f 1 = a /\ vtx m' f 2 = b.

Definition psi3 (n : Z) : Z := if n =? 3 * k + 2 then 3 * e + 2 else if n =? 3 * k + 0 then 3 * f + 0 else n.

Hypothesis No : forall x y, live m x -> x <> k -> loc y -> nb m' x y = psi3 (nb m x y).
Hypothesis Nk : nb m' k 0 = 3 * f + 1 /\ nb m' k 1 = psi3 (nb m k 1) /\ nb m' k 2 = 3 * e + 1.
Hypothesis Nel : nb m' e 0 = 3 * f + 2 /\ nb m' e 1 = 3 * k + 2 /\ nb m' e 2 = psi3 (nb m k 2).
Hypothesis Nfl : nb m' f 0 = psi3 (nb m k 0) /\ nb m' f 1 = 3 * k + 0 /\ nb m' f 2 = 3 * e + 0.

Definition fr3 (x y : Z) : Prop :=
  (x = k /\ (y = 0 \/ y = 2)) \/ (x = e /\ (y = 0 \/ y = 1)) \/ (x = f /\ (y = 1 \/ y = 2)).
Definition ph3 (x y : Z) : Z * Z := if x =? e then (k, y) else if x =? f then (k, y) else (x, y).

Lemma fr3_dec x y : fr3 x y \/ ~ fr3 x y.
Proof. unfold fr3. clear - k e f. lia. Qed.

Lemma old3 x y : live m' x -> loc y -> ~ fr3 x y ->
  (live m x /\ x <> k) \/ (x = k /\ y = 1) \/ (x = e /\ y = 2) \/ (x = f /\ y = 0).
Proof.
  intros Lx Ly F. apply HL in Lx. unfold fr3 in F.
  destruct (Z.eq_dec x k) as [->|]; [destruct Ly as [->|[->| ->]]; tauto|].
  destruct Lx as [Lx|[->| ->]]; [tauto| |]; destruct Ly as [->|[->| ->]]; tauto.
Qed.

Lemma fr3_ends x y : fr3 x y ->
  (x = k /\ y = 0 /\ ends m' x y = (ip, b)) \/ (x = k /\ y = 2 /\ ends m' x y = (p, ip)) \/
  (x = e /\ y = 0 /\ ends m' x y = (a, ip)) \/ (x = e /\ y = 1 /\ ends m' x y = (ip, p)) \/
  (x = f /\ y = 1 /\ ends m' x y = (b, ip)) \/ (x = f /\ y = 2 /\ ends m' x y = (ip, a)).
Proof.
  destruct Vk as (K1 & K2 & K3), Ve as (E1 & E2 & E3), Vf as (F1 & F2 & F3).
  intros [(-> & [->| ->])|[(-> & [->| ->])|(-> & [->| ->])]]; rewrite ends_eq by (unfold loc; auto);
    unfold inxt2, iprv2; cbn [Z.eqb Pos.eqb]; rewrite ?K1, ?K2, ?K3, ?E1, ?E2, ?E3, ?F1, ?F2, ?F3; auto 15.
Qed.

Lemma sp3_facts : k <> e /\ k <> f /\ p <> a /\ a <> b /\ b <> p /\ p <> ip /\ a <> ip /\ b <> ip.
Proof.
  destruct (HV k Lk) as (_ & _ & _ & D1 & D2 & D3).
  pose proof (Hip k 0 Lk (or_introl eq_refl)). pose proof (Hip k 1 Lk (or_intror (or_introl eq_refl))). pose proof (Hip k 2 Lk (or_intror (or_intror eq_refl))).
  assert (k <> e) by (intros ->; contradiction). assert (k <> f) by (intros ->; contradiction). repeat split; congruence.
Qed.

Lemma l0 : loc 0. Proof. left; reflexivity. Qed.
Lemma l1 : loc 1. Proof. right; left; reflexivity. Qed.
Lemma l2 : loc 2. Proof. right; right; reflexivity. Qed.

Lemma psi3_0 : psi3 0 = 0.
Proof.
  unfold psi3. destruct (Z.eqb_spec 0 (3 * k + 2)) as [E|]; [symmetry in E; apply (enc_pos m) in E; [contradiction|exact Lk|exact l2]|].
  destruct (Z.eqb_spec 0 (3 * k + 0)) as [E|]; [symmetry in E; apply (enc_pos m) in E; [contradiction|exact Lk|exact l0]|].
  reflexivity.
Qed.

Lemma back3 z w : live m z -> loc w ->
  exists x y, live m' x /\ loc y /\ ~ fr3 x y /\ ph3 x y = (z, w) /\ psi3 (3 * z + w) = 3 * x + y.
Proof.
  pose proof sp3_facts as (N1 & N2 & _). intros Lz Lw. unfold ph3, psi3, fr3.
  destruct (Z.eqb_spec (3 * z + w) (3 * k + 2)) as [E|E]; rewrite enc_dec in E by (assumption || exact l2).
  - destruct E as [-> ->]. exists e, 2. split; [apply HL; auto|]. split; [exact l2|]. split; [clear - N1 N2 Nef; lia|].
    rewrite Z.eqb_refl. auto.
  - destruct (Z.eqb_spec (3 * z + w) (3 * k + 0)) as [E2|E2]; rewrite enc_dec in E2 by (assumption || exact l0).
    + destruct E2 as [-> ->]. exists f, 0. split; [apply HL; auto|]. split; [exact l0|]. split; [clear - N1 N2 Nef; lia|].
      rewrite Z.eqb_refl. destruct (Z.eqb_spec f e); [congruence|]. auto.
    + exists z, w. assert (z <> e) by (intros ->; contradiction). assert (z <> f) by (intros ->; contradiction).
      split; [apply HL; auto|]. split; [assumption|]. split; [tauto|].
      destruct (Z.eqb_spec z e); [contradiction|]. destruct (Z.eqb_spec z f); [contradiction|]. auto.
Qed.

Lemma sp3_nb x y : live m' x -> loc y -> ~ fr3 x y ->
  live m (fst (ph3 x y)) /\ loc (snd (ph3 x y)) /\ ends m (fst (ph3 x y)) (snd (ph3 x y)) = ends m' x y /\
  nb m' x y = psi3 (nb m (fst (ph3 x y)) (snd (ph3 x y))).
Proof.
  intros Lx Ly F. pose proof sp3_facts as (N1 & N2 & _).
  destruct Vk as (K1 & K2 & K3), Ve as (E1 & E2 & E3), Vf as (F1 & F2 & F3).
  unfold ph3. destruct (old3 x y Lx Ly F) as [(Lx0 & X1)|[(-> & ->)|[(-> & ->)|(-> & ->)]]].
  - assert (x <> e) by (intros ->; contradiction). assert (x <> f) by (intros ->; contradiction).
    destruct (Z.eqb_spec x e); [contradiction|]. destruct (Z.eqb_spec x f); [contradiction|]. cbn [fst snd].
    split; [exact Lx0|]. split; [exact Ly|]. split; [|apply No; assumption].
    rewrite !ends_eq by exact Ly. rewrite !Vo by auto using loc_nxt, loc_prv. reflexivity.
  - destruct (Z.eqb_spec k e); [contradiction|]. destruct (Z.eqb_spec k f); [contradiction|]. cbn [fst snd].
    split; [exact Lk|]. split; [assumption|]. split; [|apply Nk]. rewrite !ends_eq by exact l1. cbn [inxt2 iprv2 Z.eqb]. cbn. congruence.
  - rewrite Z.eqb_refl. cbn [fst snd]. split; [exact Lk|]. split; [assumption|].
    split; [|apply Nel]. rewrite !ends_eq by exact l2. cbn. congruence.
  - destruct (Z.eqb_spec f e); [congruence|]. rewrite Z.eqb_refl. cbn [fst snd]. split; [exact Lk|]. split; [assumption|].
    split; [|apply Nfl]. rewrite !ends_eq by exact l0. cbn. congruence.
Qed.

Lemma sp3_H1n x y : live m' x -> loc y -> ~ fr3 x y ->
  (nb m' x y = 0 /\ nb m (fst (ph3 x y)) (snd (ph3 x y)) = 0) \/
  (exists z w, live m' z /\ loc w /\ ~ fr3 z w /\ nb m' x y = 3 * z + w /\
     nb m (fst (ph3 x y)) (snd (ph3 x y)) = 3 * fst (ph3 z w) + snd (ph3 z w)).
Proof.
  intros Lx Ly F. destruct (sp3_nb x y Lx Ly F) as (A & B & _ & N).
  destruct (Z.eq_dec (nb m (fst (ph3 x y)) (snd (ph3 x y))) 0) as [E|E].
  - left. rewrite N, E. split; [apply psi3_0|reflexivity].
  - right. destruct (nbr_of _ _ _ HO HA A B E) as (z0 & w0 & Lz0 & Lw0 & E1 & E2 & _).
    destruct (back3 z0 w0 Lz0 Lw0) as (z & w & Lz & Lw & Fz & P1 & P2).
    exists z, w. rewrite P1, N, E1. split; [exact Lz|]. split; [exact Lw|]. split; [exact Fz|]. split; [exact P2|reflexivity].
Qed.

Lemma sp3_H2 x y z w : live m' x -> loc y -> ~ fr3 x y -> live m' z -> loc w -> ~ fr3 z w ->
  ph3 x y = ph3 z w -> x = z /\ y = w.
Proof.
  intros Lx Ly Fx Lz Lw Fz. pose proof sp3_facts as (N1 & N2 & _). unfold ph3.
  destruct (old3 x y Lx Ly Fx) as [(Lx0 & X1)|[(-> & ->)|[(-> & ->)|(-> & ->)]]];
  destruct (old3 z w Lz Lw Fz) as [(Lz0 & Z1)|[(-> & ->)|[(-> & ->)|(-> & ->)]]];
  repeat match goal with |- context [?u =? ?v] => destruct (Z.eqb_spec u v); [|] end; intros E; inversion E; subst;
  try contradiction; try (split; congruence).
Qed.

Lemma sp3_live_f x y : fr3 x y -> live m' x /\ loc y.
Proof.
  unfold fr3, loc. intros [(-> & D)|[(-> & D)|(-> & D)]]; (split; [apply HL; auto|destruct D as [->| ->]; auto]).
Qed.

Lemma sp3_H4 x y z w : fr3 x y -> fr3 z w -> ends m' x y = ends m' z w -> x = z /\ y = w.
Proof.
  intros Fx Fz. pose proof sp3_facts as (_ & _ & D1 & D2 & D3 & D4 & D5 & D6).
  pose proof (fr3_ends x y Fx) as [C|[C|[C|[C|[C|C]]]]]; destruct C as (-> & -> & ->);
  pose proof (fr3_ends z w Fz) as [C|[C|[C|[C|[C|C]]]]]; destruct C as (-> & -> & ->);
  intros E; inversion E; first [split; reflexivity | exfalso; congruence].
Qed.

Lemma sp3_pairs x y : fr3 x y -> exists z w, fr3 z w /\ nb m' x y = 3 * z + w /\ ends m' z w = swp (ends m' x y).
Proof.
  intros Fx. destruct Nk as (K1 & _ & K3), Nel as (E1 & E2 & _), Nfl as (_ & F2 & F3).
  destruct Vk as (K1' & K2' & K3'), Ve as (E1' & E2' & E3'), Vf as (F1' & F2' & F3').
  pose proof (fr3_ends x y Fx) as C. destruct C as [C|[C|[C|[C|[C|C]]]]]; destruct C as (-> & -> & ->).
  - exists f, 1. split; [unfold fr3; tauto|]. split; [exact K1|]. rewrite ends_eq by exact l1. unfold swp; cbn; congruence.
  - exists e, 1. split; [unfold fr3; tauto|]. split; [exact K3|]. rewrite ends_eq by exact l1. unfold swp; cbn; congruence.
  - exists f, 2. split; [unfold fr3; tauto|]. split; [exact E1|]. rewrite ends_eq by exact l2. unfold swp; cbn; congruence.
  - exists k, 2. split; [unfold fr3; tauto|]. split; [exact E2|]. rewrite ends_eq by exact l2. unfold swp; cbn; congruence.
  - exists k, 0. split; [unfold fr3; tauto|]. split; [exact F2|]. rewrite ends_eq by exact l0. unfold swp; cbn; congruence.
  - exists e, 0. split; [unfold fr3; tauto|]. split; [exact F3|]. rewrite ends_eq by exact l0. unfold swp; cbn; congruence.
Qed.

Lemma sp3_all : oriented m' /\ adjacent m'.
Proof.
  assert (G1 : forall x y, live m' x -> loc y -> ~ fr3 x y ->
    live m (fst (ph3 x y)) /\ loc (snd (ph3 x y)) /\ ends m (fst (ph3 x y)) (snd (ph3 x y)) = ends m' x y).
  { intros x y Lx Ly F. destruct (sp3_nb x y Lx Ly F) as (A & B & C & _). auto. }
  assert (G3 : forall x y, live m' x -> loc y -> fr3 x y ->
    forall z w, live m z -> loc w -> ends m z w <> ends m' x y /\ ends m z w <> swp (ends m' x y)).
  { intros x y _ _ F z w Lz Lw. pose proof (fr3_ends x y F) as [C|[C|[C|[C|[C|C]]]]]; destruct C as (-> & -> & ->);
    (apply (new_edge m ip); auto). }
  assert (G4 : forall x y z w, live m' x -> loc y -> fr3 x y -> live m' z -> loc w -> fr3 z w ->
    ends m' x y = ends m' z w -> x = z /\ y = w).
  { intros x y z w _ _ F _ _ G. apply sp3_H4; assumption. }
  assert (G5 : forall x y, live m' x -> loc y -> fr3 x y ->
    (nb m' x y = 0 /\ forall z w, live m' z -> loc w -> fr3 z w -> ends m' z w <> swp (ends m' x y)) \/
    (exists z w, live m' z /\ loc w /\ nb m' x y = 3 * z + w /\ ends m' z w = swp (ends m' x y))).
  { intros x y _ _ F. destruct (sp3_pairs x y F) as (z & w & Fz & E & E'). right.
    destruct (sp3_live_f z w Fz). exists z, w. auto. }
  split; [exact (transport_oriented m m' fr3 ph3 HO fr3_dec G1 sp3_H2 G3 G4)|].
  exact (transport_adjacent m m' fr3 ph3 HA fr3_dec G1 sp3_H1n sp3_H2 G3 G4 G5).
Qed.
End Bar.

Lemma tables_use2 m m' e f l : same_frame m m' -> (forall x, live m' x <-> live m x \/ x = e \/ x = f) ->
  (forall x, ~ live m x -> x <> e -> x <> f -> vtx m' x 2 = vtx m x 2) ->
  tables_ok m -> 1 <= e <= m_nt m -> 1 <= f <= m_nt m -> chain m (m_nil m) l -> ~ In e l -> ~ In f l -> tables_ok m'.
Proof.
  intros (A1 & A2 & A3 & A4 & A5 & A6 & A7) L V (B1 & B2 & B3 & B4 & B5 & _ & B7) He Hf C Ie If.
  unfold tables_ok. rewrite A1, A2, A4, A5, A6, A7. repeat split; try assumption; try apply B3.
  - rewrite V; [exact B4| |lia|lia]. intros H. specialize (B5 _ H). lia.
  - intros x H. apply L in H. destruct H as [H|[->| ->]]; [exact (B5 x H)|lia|lia].
  - exists l. clear - A6 L V C Ie If. revert C Ie If. generalize (m_nil m). intros n C.
    induction C as [|k fl B N I C IH]; intros NI NI'; [constructor|].
    assert (k <> e) by (intros ->; apply NI; left; reflexivity). assert (k <> f) by (intros ->; apply NI'; left; reflexivity).
    constructor; [rewrite A6; exact B| |exact I|rewrite V by assumption; apply IH].
    + intros H1. apply L in H1. destruct H1 as [H1|[H1|H1]]; contradiction.
    + intros H1; apply NI; right; exact H1.
    + intros H1; apply NI'; right; exact H1.
Qed.

(** The two copies made by [MMG2D_splitbar]. *)
Lemma copy_run m k e : intab m k -> intab m e -> e <> k -> exists m', copy_elt m e k = Ret m' /\ same_frame m m' /\
  (forall x y, vtx m' x y = if x =? e then vtx m k y else vtx m x y) /\
  (forall x y, tag m' x y = if x =? e then tag m k y else tag m x y) /\
  (forall x y, edg m' x y = if x =? e then edg m k y else edg m x y) /\
  (forall x y, loc y -> nb m' x y = if x =? e then nb m k y else nb m x y).
Proof.
  intros Ik Ie Ne. unfold copy_elt. pose proof l0. pose proof l1. pose proof l2.
  rewrite get_t_ok by exact Ik. cbn [bind]. rewrite set_t_ok by exact Ie. cbn [bind].
  set (ma := p_tri m _).
  assert (Fa : same_frame m ma) by (repeat split).
  assert (Va : forall x y, vtx ma x y = if x =? e then vtx m k y else vtx m x y).
  { intros. unfold vtx, ma, upd. cbn. destruct (x =? e); reflexivity. }
  assert (Ta : forall x y, tag ma x y = if x =? e then tag m k y else tag m x y).
  { intros. unfold tag, ma, upd. cbn. destruct (x =? e); reflexivity. }
  assert (Ea : forall x y, edg ma x y = if x =? e then edg m k y else edg m x y).
  { intros. unfold edg, ma, upd. cbn. destruct (x =? e); reflexivity. }
  assert (Na : forall x y, nb ma x y = nb m x y) by reflexivity.
  clearbody ma.
  assert (Ika : intab ma k) by (eapply intab_frame; eassumption).
  assert (Iea : intab ma e) by (eapply intab_frame; eassumption).
  rewrite !get_adj_ok by assumption. cbn [bind].
  rewrite set_adj_ok by assumption. cbn [bind]. rewrite set_adj_ok by (assumption || intabs). cbn [bind].
  rewrite set_adj_ok by (assumption || intabs).
  eexists. split; [reflexivity|]. split; [eapply same_trans; [exact Fa|]; frames|].
  split; [intros; views; apply Va|]. split; [intros; views; apply Ta|]. split; [intros; views; apply Ea|].
  intros x y Ly. views. rewrite !Na. destruct (Z.eqb_spec x e) as [->|N].
  - destruct Ly as [->|[->| ->]]; unfold at2; rewrite Z.eqb_refl; cbn; reflexivity.
  - rewrite !at2_k by exact N. reflexivity.
Qed.

Section Splitbar.
Variables (m : mesh) (k ip p a b : Z).
Hypothesis HT : tables_ok m.
Hypothesis HV : vertices_ok m.
Hypothesis HO : oriented m.
Hypothesis HA : adjacent m.
Hypothesis Lk : live m k.
Hypothesis Aip : alive m ip.
Hypothesis Hip : forall x y, live m x -> loc y -> vtx m x y <> ip.
Hypothesis Ep : vtx m k 0 = p.
Hypothesis Ea : vtx m k 1 = a.
Hypothesis Eb : vtx m k 2 = b.
Hypothesis R1 : m_nil m <> 0.
Hypothesis R2 : vtx m (m_nil m) 2 <> 0.

Lemma splitbar_run : exists m' e f, splitbar false m k ip = Ret (1, m') /\ m_ptag m' = m_ptag m /\ conforming m' /\
  ~ live m e /\ ~ live m f /\ e <> f /\ (forall x, live m' x <-> live m x \/ x = e \/ x = f) /\
  tri_at m' k 0 p ip b /\ tri_at m' e 0 p a ip /\ tri_at m' f 0 ip a b /\
  (forall x y, live m x -> x <> k -> loc y -> vtx m' x y = vtx m x y).
Proof.
  pose proof l0 as L0. pose proof l1 as L1. pose proof l2 as L2.
  unfold splitbar.
  destruct (newElt_re_ok m HT) as (e & mv1 & m1 & E1 & S1 & T1 & Q1). rewrite E1. cbn [bind].
  destruct (Q1 R1) as (Ee & -> & En1 & _ & _). assert (Ne0 : e <> 0) by congruence.
  destruct T1 as [T1|T1]; [contradiction|]. rewrite (proj2 (Z.eqb_neq e 0) Ne0).
  assert (R2' : m_nil m1 <> 0) by congruence.
  destruct (newElt_re_ok m1 (tables_but_ok _ _ T1)) as (f & mv2 & m2 & E2 & S2 & T2 & Q2). rewrite E2. cbn [bind].
  destruct (Q2 R2') as (Ef & -> & _ & Nt & Ch2). assert (Nf0 : f <> 0) by congruence.
  destruct T2 as [T2|T2]; [contradiction|]. rewrite (proj2 (Z.eqb_neq f 0) Nf0). cbn [orb].
  pose proof T1 as (_ & _ & _ & _ & _ & (l & C1 & Ie1) & _ & Be1 & Nle1).
  destruct (Ch2 l C1) as (l' & El & C2). rewrite El in Ie1. rewrite <- Ef in Ie1.
  assert (Nef : e <> f) by (intros ->; apply Ie1; left; reflexivity).
  assert (Ie2 : ~ In e l') by (intros X; apply Ie1; right; exact X).
  assert (If2 : ~ In f l').
  { rewrite El in C1. inversion C1 as [|k0 l0' U1 U2 U3 U4 U5 U6]. rewrite Ef. exact U3. }
  pose proof T2 as (_ & _ & _ & _ & _ & _ & _ & Bf2 & Nlf2).
  pose proof (same_live_trans _ _ _ S1 S2) as S. destruct S as (LL & PP & VV & NN).
  assert (Nle : ~ live m e) by (intros X; apply Nle1, S1, X).
  assert (Nlf : ~ live m f) by (intros X; apply Nlf2, LL, X).
  assert (Nke : k <> e) by (intros ->; contradiction). assert (Nkf : k <> f) by (intros ->; contradiction).
  pose proof (tables_but_ok _ _ T2) as HT2. assert (Lk2 : live m2 k) by (apply LL, Lk).
  assert (Ik2 : intab m2 k) by (apply live_intab; assumption).
  assert (If2' : intab m2 f) by (apply tables_but_intab; assumption).
  assert (Ie2' : intab m2 e) by (destruct HT2 as (U1 & U2 & U3 & _); clear - U1 U2 U3 Be1 Nt; unfold intab; lia).
  rewrite !get_adj_ok by assumption. cbn [bind]. rewrite !NN by assumption.
  destruct (copy_run m2 k e Ik2 Ie2' (not_eq_sym Nke)) as (m3 & E3 & F3 & V3 & _ & _ & N3). rewrite E3. cbn [bind].
  assert (Ik3 : intab m3 k) by (eapply intab_frame; eassumption).
  assert (Ie3 : intab m3 e) by (eapply intab_frame; eassumption).
  assert (If3 : intab m3 f) by (eapply intab_frame; eassumption).
  destruct (copy_run m3 k f Ik3 If3 (not_eq_sym Nkf)) as (m4 & E4 & F4 & V4 & _ & _ & N4). rewrite E4. cbn [bind].
  assert (Ik4 : intab m4 k) by (eapply intab_frame; eassumption).
  assert (Ie4 : intab m4 e) by (eapply intab_frame; eassumption).
  assert (If4 : intab m4 f) by (eapply intab_frame; eassumption).
  rewrite set_v_ok by intabs. cbn [bind]. rewrite set_v_ok by intabs. cbn [bind]. rewrite set_v_ok by intabs. cbn [bind].
  rewrite set_tag_ok by intabs. cbn [bind]. rewrite set_edg_ok by intabs. cbn [bind].
  rewrite set_tag_ok by intabs. cbn [bind]. rewrite set_edg_ok by intabs. cbn [bind].
  rewrite set_tag_ok by intabs. cbn [bind]. rewrite set_edg_ok by intabs. cbn [bind].
  set (m5 := ped _ f 0 0).
  assert (F5 : same_frame m4 m5) by (unfold m5; frames).
  assert (V5 : forall x y, vtx m5 x y = if at2 f 0 x y then ip else if at2 e 2 x y then ip else if at2 k 1 x y then ip else vtx m4 x y)
    by (intros; unfold m5; views; reflexivity).
  assert (N5 : forall x y, nb m5 x y = nb m4 x y) by reflexivity. clearbody m5.
  assert (Ik5 : intab m5 k) by (eapply intab_frame; eassumption).
  assert (Ie5 : intab m5 e) by (eapply intab_frame; eassumption).
  assert (If5 : intab m5 f) by (eapply intab_frame; eassumption).
  assert (J : forall y, loc y -> negb (nb m k y / 3 =? 0) = true -> intab m5 (nb m k y / 3)).
  { intros y Ly H. destruct (nb_read m k y HO HA Lk Ly) as [[_ X]|X]; [rewrite X in H; discriminate|].
    eapply intab_frame; [exact F5|]. eapply intab_frame; [exact F4|]. eapply intab_frame; [exact F3|].
    apply live_intab; [exact HT2|apply LL, X]. }
  rewrite set_adj_ok by assumption. cbn [bind].
  rewrite set_adj_if by (intros H; split; [eapply intab_frame; [|apply J; [exact L2|exact H]]; frames|apply loc_mod]). cbn [bind].
  rewrite set_adj_ok by (assumption || intabs). cbn [bind].
  rewrite set_adj_if by (intros H; split; [eapply intab_frame; [|apply J; [exact L0|exact H]]; frames|apply loc_mod]). cbn [bind].
  rewrite set_adj_ok by (assumption || intabs). cbn [bind]. rewrite set_adj_ok by (assumption || intabs). cbn [bind].
  rewrite set_adj_ok by (assumption || intabs). cbn [bind]. rewrite set_adj_ok by (assumption || intabs). cbn [bind].
  rewrite set_adj_ok by (assumption || intabs). cbn [bind]. rewrite set_adj_ok by (assumption || intabs). cbn [bind].
  set (m6 := pa _ f 2 _).
  assert (F6 : same_frame m5 m6) by (unfold m6; frames).
  assert (V6 : forall x y, vtx m6 x y = vtx m5 x y) by (intros; unfold m6; views; reflexivity).
  assert (N6 : forall x y, 1 <= x -> loc y -> nb m6 x y =
    if at2 f 2 x y then 3 * e + 0 else if at2 e 0 x y then 3 * f + 2 else if at2 e 1 x y then 3 * k + 2
    else if at2 k 2 x y then 3 * e + 1 else if at2 f 1 x y then 3 * k + 0 else if at2 k 0 x y then 3 * f + 1
    else if nb m k 0 =? 3 * x + y then 3 * f + 0 else if at2 f 0 x y then nb m k 0
    else if nb m k 2 =? 3 * x + y then 3 * e + 2 else if at2 e 2 x y then nb m k 2 else nb m4 x y).
  { intros x y Hx Ly. unfold m6. views. rewrite !at_enc by assumption. rewrite N5.
    assert (DM : forall n, 3 * (n / 3) + n mod 3 = n) by (intros n; pose proof (Z.div_mod n 3); clear - H; lia).
    rewrite !DM. reflexivity. }
  clearbody m6.
  assert (NV4 : forall x y, live m x -> vtx m4 x y = vtx m x y).
  { intros x y Lx. rewrite V4. destruct (Z.eqb_spec x f) as [->|]; [contradiction|]. rewrite V3.
    destruct (Z.eqb_spec x e) as [->|]; [contradiction|]. apply VV, Lx. }
  assert (V4e : forall y, vtx m4 e y = vtx m k y).
  { intros y. rewrite V4. destruct (Z.eqb_spec e f); [contradiction|]. rewrite V3, Z.eqb_refl. apply VV, Lk. }
  assert (V4f : forall y, vtx m4 f y = vtx m k y).
  { intros y. rewrite V4, Z.eqb_refl, V3. destruct (Z.eqb_spec k e); [contradiction|]. apply VV, Lk. }
  assert (NN4 : forall x y, live m x -> loc y -> nb m4 x y = nb m x y).
  { intros x y Lx Ly. rewrite N4 by exact Ly. destruct (Z.eqb_spec x f) as [->|]; [contradiction|]. rewrite N3 by exact Ly.
    destruct (Z.eqb_spec x e) as [->|]; [contradiction|]. apply NN; assumption. }
  assert (Vk : tri_at m6 k 0 p ip b).
  { unfold tri_at. change (inxt2 0) with 1. change (iprv2 0) with 2. rewrite !V6, !V5, !(at2_k f), !(at2_k e), at2_same by congruence.
    rewrite (at2_i k 1 k 0), (at2_i k 1 k 2) by discriminate. rewrite !NV4 by exact Lk. auto. }
  assert (Ve : tri_at m6 e 0 p a ip).
  { unfold tri_at. change (inxt2 0) with 1. change (iprv2 0) with 2. rewrite !V6, !V5, !(at2_k f), !(at2_k k), at2_same by congruence.
    rewrite (at2_i e 2 e 0), (at2_i e 2 e 1) by discriminate. rewrite !V4e. auto. }
  assert (Vf : tri_at m6 f 0 ip a b).
  { unfold tri_at. change (inxt2 0) with 1. change (iprv2 0) with 2. rewrite !V6, !V5, !(at2_k e), !(at2_k k), at2_same by congruence.
    rewrite (at2_i f 0 f 1), (at2_i f 0 f 2) by discriminate. rewrite !V4f. auto. }
  assert (Vo : forall x y, live m x -> x <> k -> loc y -> vtx m6 x y = vtx m x y).
  { intros x y Lx Nx Ly. assert (x <> e) by (intros ->; contradiction). assert (x <> f) by (intros ->; contradiction).
    rewrite V6, V5, !at2_k by assumption. apply NV4, Lx. }
  assert (Fm : same_frame m2 m6) by (eapply same_trans; [exact F3|]; eapply same_trans; [exact F4|]; eapply same_trans; [exact F5|exact F6]).
  assert (HL : forall x, live m6 x <-> live m x \/ x = e \/ x = f).
  { intros x. rewrite <- LL. unfold live. destruct Fm as (-> & _).
    change (tv (aget (m_tri m6) x) 0) with (vtx m6 x 0). change (tv (aget (m_tri m2) x) 0) with (vtx m2 x 0).
    destruct (Z.eq_dec x e) as [->|N1].
    { split; [auto|]. intros _. split; [destruct Ie2' as (U1 & U2 & _); clear - U1 U2; lia|]. destruct Ve as (-> & _). rewrite <- Ep. apply pos_vtx; assumption. }
    destruct (Z.eq_dec x f) as [->|N2].
    { split; [auto|]. intros _. split; [destruct If2' as (U1 & U2 & _); clear - U1 U2; lia|]. destruct Vf as (-> & _). destruct Aip as [U _]. clear - U. lia. }
    assert (vtx m6 x 0 = vtx m2 x 0) as ->.
    { rewrite V6, V5, (at2_k f), (at2_k e), (at2_i k) by (assumption || discriminate). rewrite V4. destruct (Z.eqb_spec x f); [contradiction|].
      rewrite V3. destruct (Z.eqb_spec x e); [contradiction|]. reflexivity. }
    split; [intros H; left; exact H|]. intros [H|[H|H]]; [exact H|contradiction|contradiction]. }
  assert (T6 : tables_ok m6).
  { apply (tables_use2 m2 m6 e f l'); try assumption.
    - intros x. rewrite HL, LL. reflexivity.
    - intros x Nx N1 N2. rewrite V6, V5, !at2_k by (assumption || (intros ->; contradiction)). rewrite V4. destruct (Z.eqb_spec x f); [contradiction|].
      rewrite V3. destruct (Z.eqb_spec x e); [contradiction|]. reflexivity.
    - clear - Be1 Nt. lia. }
  assert (SELF : forall y y', loc y -> loc y' -> nb m k y <> 3 * k + y') by (intros; apply nb_self; assumption).
  assert (BK : 1 <= k) by apply Lk. assert (BE : 1 <= e) by apply Be1. assert (BF : 1 <= f) by apply Bf2.
  assert (NEV : forall y z w, loc y -> loc w -> ~ live m z -> 1 <= z -> nb m k y <> 3 * z + w).
  { intros y z w Ly Lw Nz Hz X. destruct (HA k y Lk Ly) as [[X0 _]|(z' & w' & Lz' & Lw' & X0 & _)]; rewrite X in X0.
    - exact (enc_pos1 _ _ Hz Lw X0).
    - apply enc_dec in X0; try assumption. destruct X0. congruence. }
  assert (PSI : forall y, loc y -> psi3 k e f (nb m k y) = nb m k y).
  { intros y Ly. unfold psi3. destruct (Z.eqb_spec (nb m k y) (3 * k + 2)) as [X|X]; [apply SELF in X; tauto|].
    destruct (Z.eqb_spec (nb m k y) (3 * k + 0)) as [X'|X']; [apply SELF in X'; tauto|]. reflexivity. }
  assert (Hall : oriented m6 /\ adjacent m6).
  { apply (sp3_all m m6 k e f ip p a b HV HO HA Lk Nle Nlf Nef Hip Ep Ea Eb HL Vo Vk Ve Vf).
    - intros x y Lx Nx Ly. assert (Nxe : x <> e) by (intros ->; contradiction). assert (Nxf : x <> f) by (intros ->; contradiction).
      rewrite N6 by (assumption || apply Lx). rewrite !at2_k by assumption. rewrite NN4 by assumption. unfold psi3.
      destruct (Z.eqb_spec (nb m k 0) (3 * x + y)) as [A0|A0].
      + apply (nb_sym m k 0 x y HO HA Lk L0 Lx Ly) in A0. rewrite A0, Z.eqb_refl.
        destruct (Z.eqb_spec (3 * k + 0) (3 * k + 2)) as [X|X]; [clear - X; lia|reflexivity].
      + destruct (Z.eqb_spec (nb m k 2) (3 * x + y)) as [A2|A2].
        * apply (nb_sym m k 2 x y HO HA Lk L2 Lx Ly) in A2. rewrite A2, Z.eqb_refl. reflexivity.
        * destruct (Z.eqb_spec (nb m x y) (3 * k + 2)) as [X|X]; [apply nb_sym in X; tauto|].
          destruct (Z.eqb_spec (nb m x y) (3 * k + 0)) as [X'|X']; [apply nb_sym in X'; tauto|]. reflexivity.
    - rewrite !N6 by assumption. rewrite !(at2_k f), !(at2_k e), at2_same by congruence.
      rewrite (at2_i k 2 k 0), (at2_i k 2 k 1), (at2_i k 0 k 1), at2_same by discriminate.
      split; [reflexivity|]. split; [|reflexivity]. rewrite PSI by assumption.
      destruct (Z.eqb_spec (nb m k 0) (3 * k + 1)) as [X|X]; [apply SELF in X; tauto|].
      destruct (Z.eqb_spec (nb m k 2) (3 * k + 1)) as [X'|X']; [apply SELF in X'; tauto|]. apply NN4; assumption.
    - rewrite !N6 by assumption. rewrite !(at2_k f), !(at2_k k), !at2_same by congruence.
      rewrite (at2_i e 0 e 1), (at2_i e 0 e 2), (at2_i e 1 e 2) by discriminate.
      split; [reflexivity|]. split; [reflexivity|]. rewrite PSI by assumption.
      destruct (Z.eqb_spec (nb m k 0) (3 * e + 2)) as [X|X]; [apply NEV in X; tauto|].
      destruct (Z.eqb_spec (nb m k 2) (3 * e + 2)) as [X'|X']; [apply NEV in X'; tauto|]. reflexivity.
    - rewrite !N6 by assumption. rewrite !(at2_k e), !(at2_k k), !at2_same by congruence.
      rewrite (at2_i f 2 f 0), (at2_i f 2 f 1), (at2_i f 1 f 0) by discriminate.
      split; [|split; reflexivity]. rewrite PSI by assumption.
      destruct (Z.eqb_spec (nb m k 0) (3 * f + 0)) as [X|X]; [apply NEV in X; tauto|]. reflexivity. }
  destruct Hall as [O6 A6].
  assert (P6 : m_ptag m6 = m_ptag m) by (destruct Fm as (_ & _ & -> & _); exact PP).
  exists m6, e, f. split; [reflexivity|]. split; [exact P6|]. split.
  - split; [exact T6|]. split; [|split; assumption].
    assert (AA : forall z, alive m z -> alive m6 z) by (intros z Hz; unfold alive; rewrite P6; exact Hz).
    destruct (HV k Lk) as (A1 & A2 & A3 & B1 & B2 & B3).
    pose proof (Hip k 0 Lk L0). pose proof (Hip k 1 Lk L1). pose proof (Hip k 2 Lk L2).
    intros x Lx. destruct (Z.eq_dec x k) as [->|Nxk].
    { destruct Vk as (K1 & K2 & K3). apply (vertices_at m6 k 0 L0); rewrite ?K1, ?K2, ?K3; try apply AA; congruence. }
    apply HL in Lx. destruct Lx as [Lx|[->| ->]].
    + rewrite !Vo by assumption. destruct (HV x Lx) as (B5 & B6 & B7 & B8). auto 10.
    + destruct Ve as (K1 & K2 & K3). apply (vertices_at m6 e 0 L0); rewrite ?K1, ?K2, ?K3; try apply AA; congruence.
    + destruct Vf as (K1 & K2 & K3). apply (vertices_at m6 f 0 L0); rewrite ?K1, ?K2, ?K3; try apply AA; congruence.
  - auto 15.
Qed.
End Splitbar.
