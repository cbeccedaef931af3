(** The mesh after a swap of two tetrahedra into three is conforming. *)
From Coq Require Import ZArith List Lia Bool.
From Verif Require Import CBase Tet3Model Tet3Spec Tet3Proofs Tet3Pool Tet3Col Tet3Out Rewire Swap3Model.
Import ListNotations.
Open Scope Z_scope.

(** [l'] is [l] up to a rotation. *)
Definition rot (l l' : list Z) : Prop :=
  match l with [a; b; c] => l' = [a; b; c] \/ l' = [b; c; a] \/ l' = [c; a; b] | _ => False end.

(** Two neighbours see the vertices of the common face turn in opposite senses. *)
Definition oriented (m : mesh) : Prop :=
  forall k i, live m k -> loc i -> nb m k i <> 0 -> rot (rev (fpts m k i)) (fpts m (nb m k i / 4) (nb m k i mod 4)).

Lemma rot_in l l' x : rot l l' -> (In x l' <-> In x l).
Proof. destruct l as [|a [|b [|c [|]]]]; cbn; try tauto. intros [->|[->| ->]]; cbn; tauto. Qed.
Lemma rot_sym l l' : rot l l' -> rot l' l.
Proof. destruct l as [|a [|b [|c [|]]]]; cbn; try tauto. intros [->|[->| ->]]; cbn; auto. Qed.
Lemma rot_trans l l' l'' : rot l l' -> rot l' l'' -> rot l l''.
Proof. destruct l as [|a [|b [|c [|]]]]; cbn; try tauto. intros [->|[->| ->]]; cbn; tauto. Qed.
Lemma rot_rev l l' : rot l l' -> rot (rev l) (rev l').
Proof. destruct l as [|a [|b [|c [|]]]]; cbn; try tauto. intros [->|[->| ->]]; cbn; auto. Qed.
Lemma rot_map (f : Z -> Z) l l' : rot l l' -> rot (map f l) (map f l').
Proof. destruct l as [|a [|b [|c [|]]]]; cbn; try tauto. intros [->|[->| ->]]; cbn; auto. Qed.

(** The local numbers in an even order: the faces opposite to each of them. *)
Definition even4 (t0 t1 t2 t3 : Z) : Prop :=
  (loc t0 /\ loc t1 /\ loc t2 /\ loc t3) /\ (t0 <> t1 /\ t0 <> t2 /\ t0 <> t3 /\ t1 <> t2 /\ t1 <> t3 /\ t2 <> t3) /\
  rot (idir t0) [t1; t2; t3] /\ rot (idir t1) [t0; t3; t2] /\ rot (idir t2) [t0; t1; t3] /\ rot (idir t3) [t0; t2; t1].

Lemma even_all t0 t1 t2 t3 i : even4 t0 t1 t2 t3 -> loc i -> i = t0 \/ i = t1 \/ i = t2 \/ i = t3.
Proof. intros ((A0 & A1 & A2 & A3) & N & _) H. apply loc_le in A0, A1, A2, A3, H. clear - A0 A1 A2 A3 H N. lia. Qed.

Lemma fpts_even m k t0 t1 t2 t3 : even4 t0 t1 t2 t3 ->
  let v := vtx m k in
  rot (fpts m k t0) [v t1; v t2; v t3] /\ rot (fpts m k t1) [v t0; v t3; v t2] /\
  rot (fpts m k t2) [v t0; v t1; v t3] /\ rot (fpts m k t3) [v t0; v t2; v t1].
Proof. intros (_ & _ & A & B & C & D) v. unfold fpts. fold v. repeat split; [exact (rot_map v _ _ A)|exact (rot_map v _ _ B)|exact (rot_map v _ _ C)|exact (rot_map v _ _ D)]. Qed.

Definition fptc (m : mesh) (c : Z) : list Z := fpts m (c / 4) (c mod 4).
Lemma fptc_at m k i : loc i -> fptc m (4 * k + i) = fpts m k i.
Proof. intros L. unfold fptc. rewrite dec_div, dec_mod by exact L. reflexivity. Qed.
Lemma fptc_ok m c x : In x (fptc m c) <-> fc m c x.
Proof. apply fpts_ok, loc_mod. Qed.
Lemma rot_fc m c m' c' x : rot (fptc m c) (fptc m' c') -> (fc m' c' x <-> fc m c x).
Proof. intros R. rewrite <- !fptc_ok. apply rot_in, R. Qed.

Section Swap.
Variable m m' : mesh.
Variable k k1 iel t0 t1 t2 t3 s0 s1 s2 s3 : Z.
Hypothesis V : vertices_ok m.
Hypothesis A : adjacent m.
Hypothesis Lk : live m k.
Hypothesis Lk1 : live m k1.
Hypothesis Li : ~ live m iel.
Hypothesis Ht : even4 t0 t1 t2 t3.
Hypothesis Hs : even4 s0 s1 s2 s3.
Hypothesis EN : nb m k t0 = 4 * k1 + s0.
Hypothesis E1 : vtx m k1 s1 = vtx m k t1.
Hypothesis E3 : vtx m k1 s3 = vtx m k t2.
Hypothesis E2 : vtx m k1 s2 = vtx m k t3.
Let np := vtx m k1 s0.
Let v0 := vtx m k t0.
Let v1 := vtx m k t1.
Let v2 := vtx m k t2.
Let v3 := vtx m k t3.
Hypothesis NE : forall x, live m x -> has m x v0 -> has m x np -> False.

Let K0 := 4 * k + t0. Let K1 := 4 * k + t1. Let K2 := 4 * k + t2. Let K3 := 4 * k + t3.
Let L0 := 4 * k1 + t0. Let L1 := 4 * k1 + t1. Let L2 := 4 * k1 + t2. Let L3 := 4 * k1 + t3.
Let S0 := 4 * k1 + s0. Let S1 := 4 * k1 + s1. Let S2 := 4 * k1 + s2. Let S3 := 4 * k1 + s3.
Let I0 := 4 * iel + t0. Let I1 := 4 * iel + t1. Let I2 := 4 * iel + t2. Let I3 := 4 * iel + t3.

Definition phi (c : Z) : Z :=
  if c =? 4 * k + t2 then 4 * k1 + t2 else if c =? 4 * k + t3 then 4 * iel + t3
  else if c =? 4 * k1 + s1 then 4 * k + t0 else if c =? 4 * k1 + s3 then 4 * k1 + t0
  else if c =? 4 * k1 + s2 then 4 * iel + t0 else c.

Hypothesis HL : forall x, live m' x <-> live m x \/ x = iel.
Hypothesis HV : forall x y, live m x -> x <> k -> x <> k1 -> loc y -> vtx m' x y = vtx m x y.
Hypothesis HVk : vtx m' k t0 = v0 /\ vtx m' k t1 = np /\ vtx m' k t2 = v2 /\ vtx m' k t3 = v3.
Hypothesis HV1 : vtx m' k1 t0 = v0 /\ vtx m' k1 t1 = v1 /\ vtx m' k1 t2 = np /\ vtx m' k1 t3 = v3.
Hypothesis HVi : vtx m' iel t0 = v0 /\ vtx m' iel t1 = v1 /\ vtx m' iel t2 = v2 /\ vtx m' iel t3 = np.
Hypothesis HN : forall x y, live m x -> x <> k -> x <> k1 -> loc y -> nb m' x y = phi (nb m x y).
Hypothesis HNk : nb m' k t0 = nb m k1 s1 /\ nb m' k t1 = nb m k t1 /\ nb m' k t2 = L1 /\ nb m' k t3 = I1.
Hypothesis HN1 : nb m' k1 t0 = nb m k1 s3 /\ nb m' k1 t1 = K2 /\ nb m' k1 t2 = nb m k t2 /\ nb m' k1 t3 = I2.
Hypothesis HNi : nb m' iel t0 = nb m k1 s2 /\ nb m' iel t1 = K3 /\ nb m' iel t2 = L3 /\ nb m' iel t3 = nb m k t3.

Lemma T0 : loc t0. Proof. apply Ht. Qed.
Lemma T1 : loc t1. Proof. apply Ht. Qed.
Lemma T2 : loc t2. Proof. apply Ht. Qed.
Lemma T3 : loc t3. Proof. apply Ht. Qed.
Lemma Z0 : loc s0. Proof. apply Hs. Qed.
Lemma Z1 : loc s1. Proof. apply Hs. Qed.
Lemma Z2 : loc s2. Proof. apply Hs. Qed.
Lemma Z3 : loc s3. Proof. apply Hs. Qed.
Hint Resolve T0 T1 T2 T3 Z0 Z1 Z2 Z3 loc_mod : locs.

Lemma NZ0 : nb m k t0 <> 0.
Proof. rewrite EN. apply enc_pos; auto with locs. apply (live_pos m), Lk1. Qed.
Lemma NB1 : nb m k1 s0 = K0 /\ k1 <> k.
Proof.
  destruct (nb_dec m k t0 V A Lk T0 NZ0) as (_ & _ & B & N & _). rewrite EN, dec_div, dec_mod in * by auto with locs. auto.
Qed.
Lemma k_k1 : k1 <> k. Proof. apply NB1. Qed.
Lemma k_i : iel <> k. Proof. intros ->. contradiction. Qed.
Lemma k1_i : iel <> k1. Proof. intros ->. contradiction. Qed.
Lemma np_k : ~ has m k np.
Proof. intros H. apply (NE k Lk); [exists t0; split; auto with locs|exact H]. Qed.
Lemma v0_k1 : ~ has m k1 v0.
Proof. intros H. apply (NE k1 Lk1); [exact H|exists s0; split; auto with locs]. Qed.
Lemma ptk i : loc i -> vtx m k i <> np.
Proof. intros Hi E. apply np_k. exists i. auto. Qed.
Lemma ptd i j : loc i -> loc j -> i <> j -> vtx m k i <> vtx m k j.
Proof. intros Hi Hj N E. apply N. apply (V k Lk); assumption. Qed.
Lemma pts : v0 <> v1 /\ v0 <> v2 /\ v0 <> v3 /\ v1 <> v2 /\ v1 <> v3 /\ v2 <> v3 /\ v0 <> np /\ v1 <> np /\ v2 <> np /\ v3 <> np.
Proof. destruct Ht as (_ & (N1 & N2 & N3 & N4 & N5 & N6) & _). repeat split; (apply ptd || apply ptk); auto with locs. Qed.
Lemma pos : 0 < v0 /\ 0 < v1 /\ 0 < v2 /\ 0 < v3 /\ 0 < np.
Proof. repeat split; [apply (V k Lk)|apply (V k Lk)|apply (V k Lk)|apply (V k Lk)|apply (V k1 Lk1)]; auto with locs. Qed.

Lemma live_cases x : live m' x -> x = k \/ x = k1 \/ x = iel \/ (live m x /\ x <> k /\ x <> k1).
Proof. intros H. apply HL in H. destruct (Z.eq_dec x k), (Z.eq_dec x k1), (Z.eq_dec x iel); tauto. Qed.

Lemma V' : vertices_ok m'.
Proof.
  assert (G : forall x a b c d, vtx m' x t0 = a -> vtx m' x t1 = b -> vtx m' x t2 = c -> vtx m' x t3 = d ->
    0 < a -> 0 < b -> 0 < c -> 0 < d -> a <> b -> a <> c -> a <> d -> b <> c -> b <> d -> c <> d ->
    (forall i, loc i -> 0 < vtx m' x i) /\ (forall i j, loc i -> loc j -> vtx m' x i = vtx m' x j -> i = j)).
  { intros x a b c d Ea Eb Ec Ed Pa Pb Pc Pd N1 N2 N3 N4 N5 N6. split.
    - intros i Hi. destruct (even_all _ _ _ _ i Ht Hi) as [->|[->|[->| ->]]]; congruence.
    - intros i j Hi Hj. destruct (even_all _ _ _ _ i Ht Hi) as [->|[->|[->| ->]]], (even_all _ _ _ _ j Ht Hj) as [->|[->|[->| ->]]]; congruence. }
  destruct pts as (N1 & N2 & N3 & N4 & N5 & N6 & N7 & N8 & N9 & N10). destruct pos as (P0 & P1 & P2 & P3 & Pn).
  intros x Lx. destruct (live_cases x Lx) as [->|[->|[->|(L & X1 & X2)]]].
  - destruct HVk as (Q0 & Q1 & Q2 & Q3). apply (G k v0 np v2 v3); auto.
  - destruct HV1 as (Q0 & Q1 & Q2 & Q3). apply (G k1 v0 v1 np v3); auto.
  - destruct HVi as (Q0 & Q1 & Q2 & Q3). apply (G iel v0 v1 v2 np); auto.
  - destruct (V x L) as [P J]. split; [intros a La; rewrite HV by assumption; apply P, La|intros a b La Lb; rewrite !HV by assumption; apply J; assumption].
Qed.

(** The faces of the three tetrahedra. *)
Lemma Fk : rot (fptc m' K0) [np; v2; v3] /\ rot (fptc m' K1) [v0; v3; v2] /\ rot (fptc m' K2) [v0; np; v3] /\ rot (fptc m' K3) [v0; v2; np].
Proof. unfold K0, K1, K2, K3. rewrite !fptc_at by auto with locs. pose proof (fpts_even m' k _ _ _ _ Ht) as F. cbn zeta in F. destruct HVk as (Q0 & Q1 & Q2 & Q3). rewrite Q0, Q1, Q2, Q3 in F. exact F. Qed.
Lemma F1 : rot (fptc m' L0) [v1; np; v3] /\ rot (fptc m' L1) [v0; v3; np] /\ rot (fptc m' L2) [v0; v1; v3] /\ rot (fptc m' L3) [v0; np; v1].
Proof. unfold L0, L1, L2, L3. rewrite !fptc_at by auto with locs. pose proof (fpts_even m' k1 _ _ _ _ Ht) as F. cbn zeta in F. destruct HV1 as (Q0 & Q1 & Q2 & Q3). rewrite Q0, Q1, Q2, Q3 in F. exact F. Qed.
Lemma Fi : rot (fptc m' I0) [v1; v2; np] /\ rot (fptc m' I1) [v0; np; v2] /\ rot (fptc m' I2) [v0; v1; np] /\ rot (fptc m' I3) [v0; v2; v1].
Proof. unfold I0, I1, I2, I3. rewrite !fptc_at by auto with locs. pose proof (fpts_even m' iel _ _ _ _ Ht) as F. cbn zeta in F. destruct HVi as (Q0 & Q1 & Q2 & Q3). rewrite Q0, Q1, Q2, Q3 in F. exact F. Qed.
Lemma Fo : rot (fptc m K1) [v0; v3; v2] /\ rot (fptc m K2) [v0; v1; v3] /\ rot (fptc m K3) [v0; v2; v1] /\
  rot (fptc m S1) [np; v2; v3] /\ rot (fptc m S2) [np; v1; v2] /\ rot (fptc m S3) [np; v3; v1].
Proof.
  unfold K1, K2, K3, S1, S2, S3. rewrite !fptc_at by auto with locs. pose proof (fpts_even m k _ _ _ _ Ht) as F. pose proof (fpts_even m k1 _ _ _ _ Hs) as G.
  cbn zeta in F, G. rewrite E1, E2, E3 in G. tauto.
Qed.

Definition keep (c : Z) : Prop := c <> K0 /\ c <> S0.
Definition inner (c : Z) : Prop := c = K2 \/ c = K3 \/ c = L1 \/ c = L3 \/ c = I1 \/ c = I2.
Definition iota (c : Z) : Z :=
  if c =? K2 then L1 else if c =? K3 then I1 else if c =? L1 then K2 else if c =? L3 then I2 else if c =? I1 then K3 else L3.

Lemma ne_t : t0 <> t1 /\ t0 <> t2 /\ t0 <> t3 /\ t1 <> t2 /\ t1 <> t3 /\ t2 <> t3. Proof. apply Ht. Qed.
Lemma ne_s : s0 <> s1 /\ s0 <> s2 /\ s0 <> s3 /\ s1 <> s2 /\ s1 <> s3 /\ s2 <> s3. Proof. apply Hs. Qed.

Lemma cneq x i y j : loc i -> loc j -> (x <> y \/ i <> j) -> (4 * x + i =? 4 * y + j) = false.
Proof. intros Hi Hj H. apply Z.eqb_neq. intros E. apply code_eq in E; try assumption. destruct E. subst. destruct H; contradiction. Qed.

Lemma r_k1k : k1 <> k. Proof. exact k_k1. Qed.
Lemma r_kk1 : k <> k1. Proof. exact (not_eq_sym k_k1). Qed.
Lemma r_ki : k <> iel. Proof. exact (not_eq_sym k_i). Qed.
Lemma r_k1i : k1 <> iel. Proof. exact (not_eq_sym k1_i). Qed.
Lemma d_t01 : t0 <> t1. Proof. apply ne_t. Qed.
Lemma d_t02 : t0 <> t2. Proof. apply ne_t. Qed.
Lemma d_t03 : t0 <> t3. Proof. apply ne_t. Qed.
Lemma d_t10 : t1 <> t0. Proof. apply not_eq_sym, ne_t. Qed.
Lemma d_t12 : t1 <> t2. Proof. apply ne_t. Qed.
Lemma d_t13 : t1 <> t3. Proof. apply ne_t. Qed.
Lemma d_t20 : t2 <> t0. Proof. apply not_eq_sym, ne_t. Qed.
Lemma d_t21 : t2 <> t1. Proof. apply not_eq_sym, ne_t. Qed.
Lemma d_t23 : t2 <> t3. Proof. apply ne_t. Qed.
Lemma d_t30 : t3 <> t0. Proof. apply not_eq_sym, ne_t. Qed.
Lemma d_t31 : t3 <> t1. Proof. apply not_eq_sym, ne_t. Qed.
Lemma d_t32 : t3 <> t2. Proof. apply not_eq_sym, ne_t. Qed.
Lemma d_s01 : s0 <> s1. Proof. apply ne_s. Qed.
Lemma d_s02 : s0 <> s2. Proof. apply ne_s. Qed.
Lemma d_s03 : s0 <> s3. Proof. apply ne_s. Qed.
Lemma d_s10 : s1 <> s0. Proof. apply not_eq_sym, ne_s. Qed.
Lemma d_s12 : s1 <> s2. Proof. apply ne_s. Qed.
Lemma d_s13 : s1 <> s3. Proof. apply ne_s. Qed.
Lemma d_s20 : s2 <> s0. Proof. apply not_eq_sym, ne_s. Qed.
Lemma d_s21 : s2 <> s1. Proof. apply not_eq_sym, ne_s. Qed.
Lemma d_s23 : s2 <> s3. Proof. apply ne_s. Qed.
Lemma d_s30 : s3 <> s0. Proof. apply not_eq_sym, ne_s. Qed.
Lemma d_s31 : s3 <> s1. Proof. apply not_eq_sym, ne_s. Qed.
Lemma d_s32 : s3 <> s2. Proof. apply not_eq_sym, ne_s. Qed.
Hint Resolve r_k1k r_kk1 r_ki r_k1i k_i k1_i d_t01 d_t02 d_t03 d_t10 d_t12 d_t13 d_t20 d_t21 d_t23 d_t30 d_t31 d_t32 d_s01 d_s02 d_s03 d_s10 d_s12 d_s13 d_s20 d_s21 d_s23 d_s30 d_s31 d_s32 : locs.
Ltac cn := first [rewrite Z.eqb_refl | rewrite cneq; [|solve [auto 1 with locs]|solve [auto 1 with locs]|
  solve [left; auto 1 with locs|right; auto 1 with locs]]].

Lemma phi_K1 : phi K1 = K1. Proof. unfold phi, K1. do 5 cn. reflexivity. Qed.
Lemma phi_K2 : phi K2 = L2. Proof. unfold phi, K2. cn. reflexivity. Qed.
Lemma phi_K3 : phi K3 = I3. Proof. unfold phi, K3. do 2 cn. reflexivity. Qed.
Lemma phi_S1 : phi S1 = K0. Proof. unfold phi, S1. do 3 cn. reflexivity. Qed.
Lemma phi_S3 : phi S3 = L0. Proof. unfold phi, S3. do 4 cn. reflexivity. Qed.
Lemma phi_S2 : phi S2 = I0. Proof. unfold phi, S2. do 5 cn. reflexivity. Qed.
Lemma phi_out c : c / 4 <> k -> c / 4 <> k1 -> phi c = c.
Proof.
  intros H1 H2. rewrite (code_eta c). set (x := c / 4) in *. set (y := c mod 4). assert (Y : loc y) by apply loc_mod. unfold phi.
  rewrite !cneq; auto with locs.
Qed.

Lemma row x i : loc i -> (4 * x + i) / 4 = x. Proof. apply dec_div. Qed.

Lemma keep_cases c : slot m c -> keep c ->
  c = K1 \/ c = K2 \/ c = K3 \/ c = S1 \/ c = S2 \/ c = S3 \/ (c / 4 <> k /\ c / 4 <> k1).
Proof.
  intros Sc [N0 N1]. destruct (Z.eq_dec (c / 4) k) as [E|Nk].
  - assert (Ec : c = 4 * k + c mod 4) by (rewrite <- E; apply code_eta). destruct (even_all _ _ _ _ (c mod 4) Ht (loc_mod c)) as [X|[X|[X|X]]]; rewrite X in Ec; auto.
    contradiction.
  - destruct (Z.eq_dec (c / 4) k1) as [E|Nk1]; [|auto 10].
    assert (Ec : c = 4 * k1 + c mod 4) by (rewrite <- E; apply code_eta). destruct (even_all _ _ _ _ (c mod 4) Hs (loc_mod c)) as [X|[X|[X|X]]]; rewrite X in Ec; auto 10.
Qed.

Lemma new_cases c : slot m' c ->
  c = K0 \/ c = K1 \/ c = L0 \/ c = L2 \/ c = I0 \/ c = I3 \/ inner c \/ (slot m c /\ c / 4 <> k /\ c / 4 <> k1).
Proof.
  intros Sc. unfold inner. assert (Q : forall x, c / 4 = x -> c = 4 * x + t0 \/ c = 4 * x + t1 \/ c = 4 * x + t2 \/ c = 4 * x + t3).
  { intros x E. assert (Ec : c = 4 * x + c mod 4) by (rewrite <- E; apply code_eta).
    destruct (even_all _ _ _ _ (c mod 4) Ht (loc_mod c)) as [X|[X|[X|X]]]; rewrite X in Ec; auto. }
  destruct (live_cases _ Sc) as [E|[E|[E|H]]]; [specialize (Q k E)|specialize (Q k1 E)|specialize (Q iel E)|]; tauto.
Qed.

(** The neighbours of the outer faces of the two tetrahedra are outside. *)
Lemma out_k i : loc i -> i <> t0 -> nb m k i <> 0 -> nb m k i / 4 <> k /\ nb m k i / 4 <> k1.
Proof.
  intros Hi N NZ. destruct (nb_dec m k i V A Lk Hi NZ) as (Ll & _ & _ & NK & SF). split; [exact NK|]. intros E. apply v0_k1. rewrite <- E.
  apply (on_has _ _ (nb m k i mod 4)). apply (SF v0). apply on_other; auto with locs.
Qed.
Lemma out_k1 i : loc i -> i <> s0 -> nb m k1 i <> 0 -> nb m k1 i / 4 <> k /\ nb m k1 i / 4 <> k1.
Proof.
  intros Hi N NZ. destruct (nb_dec m k1 i V A Lk1 Hi NZ) as (Ll & _ & _ & NK & SF). split; [|exact NK]. intros E. apply np_k. rewrite <- E.
  apply (on_has _ _ (nb m k1 i mod 4)). apply (SF np). apply on_other; auto with locs.
Qed.
Lemma phi_0 : phi 0 = 0.
Proof. pose proof (live_pos m k Lk). pose proof (live_pos m k1 Lk1). apply phi_out; cbn; lia. Qed.
Lemma phi_nk i : loc i -> i <> t0 -> phi (nb m k i) = nb m k i.
Proof. intros Hi N. destruct (Z.eq_dec (nb m k i) 0) as [E|NZ]; [rewrite E; exact phi_0|]. destruct (out_k i Hi N NZ). apply phi_out; assumption. Qed.
Lemma phi_nk1 i : loc i -> i <> s0 -> phi (nb m k1 i) = nb m k1 i.
Proof. intros Hi N. destruct (Z.eq_dec (nb m k1 i) 0) as [E|NZ]; [rewrite E; exact phi_0|]. destruct (out_k1 i Hi N NZ). apply phi_out; assumption. Qed.

Lemma phi_face c : slot m c -> keep c -> rot (fptc m c) (fptc m' (phi c)).
Proof.
  intros Sc Kc. destruct Fk as (A0 & A1 & _ & _). destruct F1 as (B0 & _ & B2 & _). destruct Fi as (C0 & _ & _ & C3). destruct Fo as (D1 & D2 & D3 & G1 & G2 & G3).
  destruct (keep_cases c Sc Kc) as [->|[->|[->|[->|[->|[->|[N1 N2]]]]]]].
  - rewrite phi_K1. eapply rot_trans; [exact D1|apply rot_sym, A1].
  - rewrite phi_K2. eapply rot_trans; [exact D2|apply rot_sym, B2].
  - rewrite phi_K3. eapply rot_trans; [exact D3|apply rot_sym, C3].
  - rewrite phi_S1. eapply rot_trans; [exact G1|apply rot_sym, A0].
  - rewrite phi_S2. eapply rot_trans; [exact G2|]. apply rot_sym. eapply rot_trans; [exact C0|]. cbn. auto.
  - rewrite phi_S3. eapply rot_trans; [exact G3|]. apply rot_sym. eapply rot_trans; [exact B0|]. cbn. auto.
  - rewrite phi_out by assumption. unfold fptc, fpts. rewrite (map_ext_in (vtx m' (c / 4)) (vtx m (c / 4))).
    + destruct (idir (c mod 4)) as [|a [|b [|d [|]]]] eqn:E; pose proof (idir_len _ (loc_mod c)) as Q; rewrite E in Q; try discriminate. cbn. auto.
    + intros a Ia. apply HV; auto. apply (idir_loc (c mod 4)); auto with locs.
Qed.

Lemma phi_nb c : slot m c -> keep c -> nbc m' (phi c) = phi (nbc m c).
Proof.
  intros Sc Kc. destruct HNk as (A0 & A1 & _ & _). destruct HN1 as (B0 & _ & B2 & _). destruct HNi as (C0 & _ & _ & C3).
  pose proof ne_t as (n1 & n2 & n3 & n4 & n5 & n6). pose proof ne_s as (p1 & p2 & p3 & p4 & p5 & p6).
  destruct (keep_cases c Sc Kc) as [->|[->|[->|[->|[->|[->|[N1 N2]]]]]]].
  - rewrite phi_K1. unfold K1. rewrite !nbc_at, A1, phi_nk by auto with locs. reflexivity.
  - rewrite phi_K2. unfold K2, L2. rewrite !nbc_at, B2, phi_nk by auto with locs. reflexivity.
  - rewrite phi_K3. unfold K3, I3. rewrite !nbc_at, C3, phi_nk by auto with locs. reflexivity.
  - rewrite phi_S1. unfold S1, K0. rewrite !nbc_at, A0, phi_nk1 by auto with locs. reflexivity.
  - rewrite phi_S2. unfold S2, I0. rewrite !nbc_at, C0, phi_nk1 by auto with locs. reflexivity.
  - rewrite phi_S3. unfold S3, L0. rewrite !nbc_at, B0, phi_nk1 by auto with locs. reflexivity.
  - rewrite phi_out by assumption. unfold nbc. apply HN; auto with locs.
Qed.

Lemma slotK x i : loc i -> live m' x -> slot m' (4 * x + i).
Proof. intros Hi L. apply slot_at; assumption. Qed.
Lemma Lk' : live m' k. Proof. apply HL. auto. Qed.
Lemma Lk1' : live m' k1. Proof. apply HL. auto. Qed.
Lemma Li' : live m' iel. Proof. apply HL. auto. Qed.
Hint Resolve slotK Lk' Lk1' Li' : locs.

Lemma phi_slot c : slot m c -> keep c -> slot m' (phi c).
Proof.
  intros Sc Kc. destruct (keep_cases c Sc Kc) as [->|[->|[->|[->|[->|[->|[N1 N2]]]]]]].
  - rewrite phi_K1. apply slotK; auto with locs.
  - rewrite phi_K2. apply slotK; auto with locs.
  - rewrite phi_K3. apply slotK; auto with locs.
  - rewrite phi_S1. apply slotK; auto with locs.
  - rewrite phi_S2. apply slotK; auto with locs.
  - rewrite phi_S3. apply slotK; auto with locs.
  - rewrite phi_out by assumption. apply HL. left. exact Sc.
Qed.

Lemma keep_K1 : slot m K1 /\ keep K1.
Proof. split; [apply slot_at; auto with locs|]. split; apply Z.eqb_neq; unfold K1, K0, S0; cn; reflexivity. Qed.
Lemma keep_K2 : slot m K2 /\ keep K2.
Proof. split; [apply slot_at; auto with locs|]. split; apply Z.eqb_neq; unfold K2, K0, S0; cn; reflexivity. Qed.
Lemma keep_K3 : slot m K3 /\ keep K3.
Proof. split; [apply slot_at; auto with locs|]. split; apply Z.eqb_neq; unfold K3, K0, S0; cn; reflexivity. Qed.
Lemma keep_S1 : slot m S1 /\ keep S1.
Proof. split; [apply slot_at; auto with locs|]. split; apply Z.eqb_neq; unfold S1, K0, S0; cn; reflexivity. Qed.
Lemma keep_S2 : slot m S2 /\ keep S2.
Proof. split; [apply slot_at; auto with locs|]. split; apply Z.eqb_neq; unfold S2, K0, S0; cn; reflexivity. Qed.
Lemma keep_S3 : slot m S3 /\ keep S3.
Proof. split; [apply slot_at; auto with locs|]. split; apply Z.eqb_neq; unfold S3, K0, S0; cn; reflexivity. Qed.
Lemma keep_out c : slot m c -> c / 4 <> k -> c / 4 <> k1 -> keep c.
Proof. intros _ H1 H2. split; intros ->; [apply H1|apply H2]; apply dec_div; auto with locs. Qed.

Lemma phi_onto c' : slot m' c' -> (exists c, slot m c /\ keep c /\ c' = phi c) \/ inner c'.
Proof.
  intros Sc. destruct (new_cases c' Sc) as [->|[->|[->|[->|[->|[->|[H|(H & N1 & N2)]]]]]]].
  - left. exists S1. rewrite phi_S1. destruct keep_S1; auto.
  - left. exists K1. rewrite phi_K1. destruct keep_K1; auto.
  - left. exists S3. rewrite phi_S3. destruct keep_S3; auto.
  - left. exists K2. rewrite phi_K2. destruct keep_K2; auto.
  - left. exists S2. rewrite phi_S2. destruct keep_S2; auto.
  - left. exists K3. rewrite phi_K3. destruct keep_K3; auto.
  - right. exact H.
  - left. exists c'. rewrite phi_out by assumption. auto using keep_out.
Qed.

(** The inner faces. *)
Lemma iotas : iota K2 = L1 /\ iota K3 = I1 /\ iota L1 = K2 /\ iota L3 = I2 /\ iota I1 = K3 /\ iota I2 = L3.
Proof.
  repeat split; unfold iota, K2, K3, L1, L3, I1, I2.
  - cn. reflexivity.
  - do 2 cn. reflexivity.
  - do 3 cn. reflexivity.
  - do 4 cn. reflexivity.
  - do 5 cn. reflexivity.
  - do 5 cn. reflexivity.
Qed.

Lemma inner_rot c : inner c -> slot m' c /\ nbc m' c = iota c /\ slot m' (iota c) /\ iota c / 4 <> c / 4 /\ rot (rev (fptc m' c)) (fptc m' (iota c)) /\ inner (iota c).
Proof.
  destruct iotas as (i1 & i2 & i3 & i4 & i5 & i6).
  destruct Fk as (_ & _ & A2 & A3). destruct F1 as (_ & B1 & _ & B3). destruct Fi as (_ & C1 & C2 & _).
  destruct HNk as (_ & _ & P2 & P3). destruct HN1 as (_ & Q1 & _ & Q3). destruct HNi as (_ & R1 & R2 & _).
  pose proof k_k1. pose proof k_i. pose proof k1_i.
  intros [->|[->|[->|[->|[->| ->]]]]]; rewrite ?i1, ?i2, ?i3, ?i4, ?i5, ?i6; (split; [apply slotK; auto with locs|split; [|split; [apply slotK; auto with locs|split; [|split; [|unfold inner; tauto]]]]]).
  - unfold K2. rewrite nbc_at by auto with locs. exact P2.
  - unfold K2, L1. rewrite !dec_div by auto with locs. assumption.
  - eapply rot_trans; [apply rot_rev; exact A2|]. apply rot_sym. eapply rot_trans; [exact B1|]. cbn. auto.
  - unfold K3. rewrite nbc_at by auto with locs. exact P3.
  - unfold K3, I1. rewrite !dec_div by auto with locs. assumption.
  - eapply rot_trans; [apply rot_rev; exact A3|]. apply rot_sym. eapply rot_trans; [exact C1|]. cbn. auto.
  - unfold L1. rewrite nbc_at by auto with locs. exact Q1.
  - unfold K2, L1. rewrite !dec_div by auto with locs. congruence.
  - eapply rot_trans; [apply rot_rev; exact B1|]. apply rot_sym. eapply rot_trans; [exact A2|]. cbn. auto.
  - unfold L3. rewrite nbc_at by auto with locs. exact Q3.
  - unfold L3, I2. rewrite !dec_div by auto with locs. assumption.
  - eapply rot_trans; [apply rot_rev; exact B3|]. apply rot_sym. eapply rot_trans; [exact C2|]. cbn. auto.
  - unfold I1. rewrite nbc_at by auto with locs. exact R1.
  - unfold K3, I1. rewrite !dec_div by auto with locs. congruence.
  - eapply rot_trans; [apply rot_rev; exact C1|]. apply rot_sym. eapply rot_trans; [exact A3|]. cbn. auto.
  - unfold I2. rewrite nbc_at by auto with locs. exact R2.
  - unfold L3, I2. rewrite !dec_div by auto with locs. congruence.
  - eapply rot_trans; [apply rot_rev; exact C2|]. apply rot_sym. eapply rot_trans; [exact B3|]. cbn. auto.
Qed.

(** An inner face holds the new edge and one of the three vertices of the old face. *)
Lemma inner_pts c x : inner c -> fc m' c v0 /\ fc m' c np /\
  (fc m' c x <-> x = v0 \/ x = np \/ x = (if (c =? K2) || (c =? L1) then v3 else if (c =? K3) || (c =? I1) then v2 else v1)).
Proof.
  destruct Fk as (_ & _ & A2 & A3). destruct F1 as (_ & B1 & _ & B3). destruct Fi as (_ & C1 & C2 & _).
  intros H. rewrite <- !fptc_ok. unfold inner in H.
  assert (G : forall c l, rot (fptc m' c) l -> forall y, In y (fptc m' c) <-> In y l) by (intros d l R y; symmetry; apply rot_in, R).
  destruct H as [->|[->|[->|[->|[->| ->]]]]].
  - rewrite !(G _ _ A2). unfold K2. cn. cbn. intuition.
  - rewrite !(G _ _ A3). unfold K3, K2, L1. do 3 cn. cbn. intuition.
  - rewrite !(G _ _ B1). unfold K2, L1. do 2 cn. cbn. intuition.
  - rewrite !(G _ _ B3). unfold K2, L1, L3, K3, I1. do 4 cn. cbn. intuition.
  - rewrite !(G _ _ C1). unfold K2, L1, K3, I1. do 4 cn. cbn. intuition.
  - rewrite !(G _ _ C2). unfold K2, L1, K3, I1, I2. do 4 cn. cbn. intuition.
Qed.

Lemma inner_same c d : inner c -> inner d -> samec m' c d -> d = c \/ d = iota c.
Proof.
  intros Hc Hd S. destruct pts as (N1 & N2 & N3 & N4 & N5 & N6 & N7 & N8 & N9 & N10). destruct iotas as (i1 & i2 & i3 & i4 & i5 & i6).
  assert (S1' : fc m' d v1 <-> fc m' c v1) by (symmetry; apply S). assert (S2' : fc m' d v2 <-> fc m' c v2) by (symmetry; apply S).
  assert (S3' : fc m' d v3 <-> fc m' c v3) by (symmetry; apply S).
  destruct (inner_pts c v1 Hc) as (_ & _ & c1), (inner_pts c v2 Hc) as (_ & _ & c2), (inner_pts c v3 Hc) as (_ & _ & c3).
  destruct (inner_pts d v1 Hd) as (_ & _ & d1), (inner_pts d v2 Hd) as (_ & _ & d2), (inner_pts d v3 Hd) as (_ & _ & d3).
  rewrite c1, d1 in S1'. rewrite c2, d2 in S2'. rewrite c3, d3 in S3'. clear c1 c2 c3 d1 d2 d3 S.
  assert (Q : forall x, inner x -> ((x = K2 \/ x = L1) /\ (x =? K2) || (x =? L1) = true) \/
    ((x = K3 \/ x = I1) /\ (x =? K2) || (x =? L1) = false /\ (x =? K3) || (x =? I1) = true) \/
    ((x = L3 \/ x = I2) /\ (x =? K2) || (x =? L1) = false /\ (x =? K3) || (x =? I1) = false)).
  { intros x H. destruct H as [->|[->|[->|[->|[->| ->]]]]].
    - left. split; [left; reflexivity|]. unfold K2. cn. reflexivity.
    - right. left. split; [left; reflexivity|]. unfold K2, K3, L1. do 3 cn. split; reflexivity.
    - left. split; [right; reflexivity|]. unfold K2, L1. do 2 cn. reflexivity.
    - right. right. split; [left; reflexivity|]. unfold K2, L1, L3, K3, I1. do 4 cn. split; reflexivity.
    - right. left. split; [right; reflexivity|]. unfold K2, L1, K3, I1. do 4 cn. split; reflexivity.
    - right. right. split; [right; reflexivity|]. unfold K2, L1, I2, K3, I1. do 4 cn. split; reflexivity. }
  assert (Z : forall y x, y <> v0 -> y <> np -> ((y = v0 \/ y = np \/ y = x) <-> (y = v0 \/ y = np \/ y = y)) -> y = x).
  { clear. intros y x Q1 Q2 [_ H]. destruct H as [H|[H|H]]; auto; contradiction. }
  destruct (Q c Hc) as [[Ec X']|[[Ec [X' Y']]|[Ec [X' Y']]]], (Q d Hd) as [[Ed X]|[[Ed [X Y]]|[Ed [X Y]]]]; rewrite X, X' in S1', S2', S3'; try rewrite Y in S1', S2', S3'; try rewrite Y' in S1', S2', S3'; clear - Z Ec Ed S1' S2' S3' N1 N2 N3 N4 N5 N6 N7 N8 N9 N10 i1 i2 i3 i4 i5 i6.
  - destruct Ec as [-> | ->], Ed as [-> | ->]; rewrite ?i1, ?i3; auto.
  - exfalso. apply Z in S3'; congruence.
  - exfalso. apply Z in S3'; congruence.
  - exfalso. apply Z in S2'; congruence.
  - destruct Ec as [-> | ->], Ed as [-> | ->]; rewrite ?i2, ?i5; auto.
  - exfalso. apply Z in S2'; congruence.
  - exfalso. apply Z in S1'; congruence.
  - exfalso. apply Z in S1'; congruence.
  - destruct Ec as [-> | ->], Ed as [-> | ->]; rewrite ?i4, ?i6; auto.
Qed.

Lemma keep_nb c : slot m c -> keep c -> nbc m c <> 0 -> keep (nbc m c).
Proof.
  intros Sc [N0 N1] NZ. destruct (nbc_sym m c V A Sc NZ) as (_ & B & _ & _). split; intros E; rewrite E in B.
  - apply N1. rewrite <- B. unfold K0. rewrite nbc_at by auto with locs. exact EN.
  - apply N0. rewrite <- B. unfold S0. rewrite nbc_at by auto with locs. apply NB1.
Qed.

Lemma phi_inj c d : slot m c -> keep c -> slot m d -> keep d -> phi c = phi d -> c = d.
Proof.
  intros Sc Kc Sd Kd E. pose proof ne_t as (n1 & n2 & n3 & n4 & n5 & n6). pose proof k_k1 as q1. pose proof k_i as q2. pose proof k1_i as q3.
  assert (R : forall x y i j, loc i -> loc j -> 4 * x + i = 4 * y + j -> x = y /\ i = j) by (intros; apply code_eq; assumption).
  assert (O : forall c x i, slot m c -> c / 4 <> k -> c / 4 <> k1 -> loc i -> (x = k \/ x = k1 \/ x = iel) -> 4 * x + i = c -> False).
  { intros e x i Se X1 X2 Hi Hx X. unfold slot in Se. rewrite <- X, dec_div in * by exact Hi. destruct Hx as [->|[->| ->]]; contradiction. }
  destruct (keep_cases c Sc Kc) as [->|[->|[->|[->|[->|[->|[N1 N2]]]]]]], (keep_cases d Sd Kd) as [->|[->|[->|[->|[->|[->|[M1 M2]]]]]]];
    rewrite ?phi_K1, ?phi_K2, ?phi_K3, ?phi_S1, ?phi_S2, ?phi_S3, ?(phi_out c), ?(phi_out d) in E by assumption; try reflexivity; try exact E;
    first [ exfalso; apply R in E; auto with locs; destruct E; congruence | exfalso; apply O in E; auto with locs | exfalso; symmetry in E; apply O in E; auto with locs | idtac ].
Qed.

Theorem swap_adjacent : adjacent m'.
Proof.
  apply (rewire m m' V A V' phi iota keep inner).
  - exact phi_onto.
  - exact phi_slot.
  - intros c x Sc Kc. apply rot_fc, phi_face; assumption.
  - intros c Sc Kc. rewrite (phi_nb c Sc Kc). destruct (Z.eqb_spec (nbc m c) 0) as [->|]; [exact phi_0|reflexivity].
  - exact keep_nb.
  - intros c Hc. destruct (inner_rot c Hc) as (_ & A1 & A2 & A3 & A4 & _). split; [exact A1|]. split; [exact A2|]. split; [exact A3|].
    intros x. rewrite <- !fptc_ok. rewrite (rot_in _ _ x A4). apply in_rev.
  - exact inner_same.
  - intros c d Hc Sd Kd F. destruct (inner_pts c 0 Hc) as (P0 & Pn & _). apply (NE (d / 4) Sd).
    + apply (on_has m (d / 4) (d mod 4)), F, P0.
    + apply (on_has m (d / 4) (d mod 4)), F, Pn.
  - exact phi_inj.
Qed.

Theorem swap_oriented : oriented m -> oriented m'.
Proof.
  intros O x i Lx Hi NZ. rewrite <- (nbc_at m' x i Hi) in *. rewrite <- (fptc_at m' x i Hi). fold (fptc m' (nbc m' (4 * x + i))).
  assert (Sx : slot m' (4 * x + i)) by (apply slot_at; assumption). set (c' := 4 * x + i) in *. clearbody c'.
  destruct (phi_onto c' Sx) as [(c & Sc & Kc & ->)|Hc].
  - rewrite (phi_nb c Sc Kc) in *. assert (NZ' : nbc m c <> 0) by (intros E; apply NZ; rewrite E; exact phi_0).
    pose proof (O (c / 4) (c mod 4) Sc (loc_mod c) NZ') as R. fold (nbc m c) in R. fold (fptc m c) in R. fold (fptc m (nbc m c)) in R.
    pose proof (nbc_sym m c V A Sc NZ') as (Sn & _).
    eapply rot_trans; [apply rot_sym, rot_rev, (phi_face c Sc Kc)|]. eapply rot_trans; [exact R|]. apply phi_face; [exact Sn|]. apply keep_nb; assumption.
  - destruct (inner_rot c' Hc) as (_ & E & _ & _ & R & _). rewrite E. exact R.
Qed.
End Swap.
