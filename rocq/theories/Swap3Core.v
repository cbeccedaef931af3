(** The table of tetrahedra and the adjacency after the writes of the swap of two tetrahedra into three. *)
From Coq Require Import ZArith List Lia Bool.
From Verif Require Import CBase Tet3Model Tet3Spec Tet3Proofs Tet3Pool Tet3Col Tet3Out Rewire Swap3Model Swap3Out.
Import ListNotations.
Open Scope Z_scope.

Lemma nbc_pa m k i x c : loc i -> nbc (pa m k i x) c = if c =? 4 * k + i then x else nbc m c.
Proof.
  intros Hi. unfold nbc. rewrite nb_pa by auto using loc_mod. destruct (at2_dec k i (c / 4) (c mod 4)) as [(E1 & E2 & ->)|(N & ->)].
  - rewrite (code_eta c), E1, E2, Z.eqb_refl. reflexivity.
  - destruct (Z.eqb_spec c (4 * k + i)) as [E|_]; [|reflexivity]. exfalso. apply N. rewrite E, dec_div, dec_mod by exact Hi. auto.
Qed.

Definition pb (m : mesh) (a v : Z) : mesh := if a =? 0 then m else pa m (a / 4) (a mod 4) v.
Lemma back_ok m a v : (a <> 0 -> intab m (a / 4)) -> back m a v = Ret (pb m a v).
Proof. intros H. unfold back, pb. destruct (Z.eqb_spec a 0); [reflexivity|]. apply set_adj_ok; [apply H; assumption|apply loc_mod]. Qed.
Lemma nbc_pb m a v c : nbc (pb m a v) c = if negb (a =? 0) && (c =? a) then v else nbc m c.
Proof.
  unfold pb. destruct (Z.eqb_spec a 0) as [->|N]; [reflexivity|]. rewrite nbc_pa by apply loc_mod. rewrite <- (code_eta a). reflexivity.
Qed.
Lemma frame_pb m a v : same_frame m (pb m a v).
Proof. unfold pb. destruct (a =? 0); [apply frame_refl|apply frame_pa]. Qed.
Lemma tet_pb m a v : m_tet (pb m a v) = m_tet m.
Proof. unfold pb. destruct (a =? 0); reflexivity. Qed.

Section Core.
Variable mb : mesh.
Variable k k1 iel t0 t1 t2 t3 np : Z.
Variable pt0 : tetra.
Variable a02 a03 a11 a12 a13 : Z.

Definition core : mesh :=
  let mm := pv (pv (pv (pt mb iel pt0) k t1 np) k1 t2 np) iel t3 np in
  let mm := pa (pa (pa mm k t0 a11) k t2 (4 * k1 + t1)) k t3 (4 * iel + t1) in
  let mm := pb mm a11 (4 * k + t0) in
  let mm := pa (pa (pa (pa mm k1 t0 a13) k1 t1 (4 * k + t2)) k1 t2 a02) k1 t3 (4 * iel + t2) in
  let mm := pb (pb mm a13 (4 * k1 + t0)) a02 (4 * k1 + t2) in
  let mm := pa (pa (pa (pa mm iel t0 a12) iel t1 (4 * k + t3)) iel t2 (4 * k1 + t3)) iel t3 a03 in
  pb (pb mm a12 (4 * iel + t0)) a03 (4 * iel + t3).

Hypothesis Ht : even4 t0 t1 t2 t3.
Hypothesis Nk1 : k1 <> k.
Hypothesis Nik : iel <> k.
Hypothesis Nik1 : iel <> k1.

Lemma core_frame : same_frame mb core.
Proof.
  unfold core. repeat (eapply frame_trans; [|first [apply frame_pb|apply frame_pa|apply frame_pv|apply frame_pt]]). apply frame_refl.
Qed.

Definition put (t : tetra) (i x : Z) : tetra := mkTet (upd (qv t) i x) (qref t) (qtag t) (qxt t) (qflag t).

Lemma core_tet x : aget (m_tet core) x =
  if x =? k then put (aget (m_tet mb) k) t1 np else if x =? k1 then put (aget (m_tet mb) k1) t2 np
  else if x =? iel then put pt0 t3 np else aget (m_tet mb) x.
Proof.
  unfold core. rewrite !tet_pb. cbn [m_tet pa p_adjs]. rewrite !tet_pb. cbn [m_tet pa p_adjs]. rewrite !tet_pb. cbn [m_tet pa p_adjs].
  unfold pv, pt, put. cbn [m_tet p_tet aget]. unfold upd.
  destruct (Z.eqb_spec x iel) as [->|N1].
  - rewrite (proj2 (Z.eqb_neq _ _) Nik), (proj2 (Z.eqb_neq _ _) Nik1), Z.eqb_refl. reflexivity.
  - destruct (Z.eqb_spec x k1) as [->|N2].
    + rewrite (proj2 (Z.eqb_neq _ _) Nk1), (proj2 (Z.eqb_neq _ _) (not_eq_sym Nik1)). reflexivity.
    + destruct (Z.eqb_spec x k) as [->|N3]; [|reflexivity]. rewrite (proj2 (Z.eqb_neq _ _) (not_eq_sym Nik)). reflexivity.
Qed.

Lemma ct0 : loc t0. Proof. apply Ht. Qed.
Lemma ct1 : loc t1. Proof. apply Ht. Qed.
Lemma ct2 : loc t2. Proof. apply Ht. Qed.
Lemma ct3 : loc t3. Proof. apply Ht. Qed.

Lemma core_nbc c : nbc core c =
  if negb (a03 =? 0) && (c =? a03) then 4 * iel + t3 else if negb (a12 =? 0) && (c =? a12) then 4 * iel + t0 else
  if c =? 4 * iel + t3 then a03 else if c =? 4 * iel + t2 then 4 * k1 + t3 else if c =? 4 * iel + t1 then 4 * k + t3 else if c =? 4 * iel + t0 then a12 else
  if negb (a02 =? 0) && (c =? a02) then 4 * k1 + t2 else if negb (a13 =? 0) && (c =? a13) then 4 * k1 + t0 else
  if c =? 4 * k1 + t3 then 4 * iel + t2 else if c =? 4 * k1 + t2 then a02 else if c =? 4 * k1 + t1 then 4 * k + t2 else if c =? 4 * k1 + t0 then a13 else
  if negb (a11 =? 0) && (c =? a11) then 4 * k + t0 else
  if c =? 4 * k + t3 then 4 * iel + t1 else if c =? 4 * k + t2 then 4 * k1 + t1 else if c =? 4 * k + t0 then a11 else nbc mb c.
Proof.
  pose proof ct0. pose proof ct1. pose proof ct2. pose proof ct3.
  unfold core. rewrite !nbc_pb, !nbc_pa, !nbc_pb, !nbc_pa, !nbc_pb, !nbc_pa by assumption. reflexivity.
Qed.

(** The rows of the three tetrahedra, when the neighbours of the outer faces are outside. *)
Hypothesis Ho : forall a, (a = a02 \/ a = a03 \/ a = a11 \/ a = a12 \/ a = a13) -> a <> 0 -> a / 4 <> k /\ a / 4 <> k1 /\ a / 4 <> iel.

Lemma off a x i : (a = a02 \/ a = a03 \/ a = a11 \/ a = a12 \/ a = a13) -> (x = k \/ x = k1 \/ x = iel) -> loc i -> negb (a =? 0) && (4 * x + i =? a) = false.
Proof.
  intros Ha Hx Hi. destruct (Z.eqb_spec a 0) as [|N]; [reflexivity|]. cbn. apply Z.eqb_neq. intros E. destruct (Ho a Ha N) as (N1 & N2 & N3).
  assert (a / 4 = x) by (rewrite <- E; apply dec_div, Hi). destruct Hx as [?|[?|?]]; congruence.
Qed.

Ltac ce := first [rewrite Z.eqb_refl | rewrite cneq by (first [assumption | left; assumption | right; assumption | left; apply not_eq_sym; assumption | right; apply not_eq_sym; assumption])].

Lemma core_rows :
  (nb core k t0 = a11 /\ nb core k t1 = nb mb k t1 /\ nb core k t2 = 4 * k1 + t1 /\ nb core k t3 = 4 * iel + t1) /\
  (nb core k1 t0 = a13 /\ nb core k1 t1 = 4 * k + t2 /\ nb core k1 t2 = a02 /\ nb core k1 t3 = 4 * iel + t2) /\
  (nb core iel t0 = a12 /\ nb core iel t1 = 4 * k + t3 /\ nb core iel t2 = 4 * k1 + t3 /\ nb core iel t3 = a03).
Proof.
  pose proof ct0. pose proof ct1. pose proof ct2. pose proof ct3. pose proof Ht as (_ & (n1 & n2 & n3 & n4 & n5 & n6) & _).
  assert (G : forall x i, loc i -> nb core x i = nbc core (4 * x + i)) by (intros; symmetry; apply nbc_at; assumption).
  rewrite !G by assumption.
  assert (F : forall x i, loc i -> (x = k \/ x = k1 \/ x = iel) -> nbc core (4 * x + i) =
    (if 4 * x + i =? 4 * iel + t3 then a03 else if 4 * x + i =? 4 * iel + t2 then 4 * k1 + t3 else if 4 * x + i =? 4 * iel + t1 then 4 * k + t3 else if 4 * x + i =? 4 * iel + t0 then a12 else
     if 4 * x + i =? 4 * k1 + t3 then 4 * iel + t2 else if 4 * x + i =? 4 * k1 + t2 then a02 else if 4 * x + i =? 4 * k1 + t1 then 4 * k + t2 else if 4 * x + i =? 4 * k1 + t0 then a13 else
     if 4 * x + i =? 4 * k + t3 then 4 * iel + t1 else if 4 * x + i =? 4 * k + t2 then 4 * k1 + t1 else if 4 * x + i =? 4 * k + t0 then a11 else nb mb x i)).
  { intros x i Hi Hx. rewrite core_nbc, !off by auto 10. rewrite (nbc_at mb x i Hi). reflexivity. }
  repeat split; rewrite F by auto; repeat ce; reflexivity.
Qed.
End Core.
