(** Checks of the hypotheses on concrete tetrahedral meshes, for the examples. *)
From Coq Require Import ZArith List Lia Bool.
From Verif Require Import CBase Tet3Model Tet3Spec Tet3Proofs Tet3Col Tet3Out.
Import ListNotations.
Open Scope Z_scope.

Definition ks (m : mesh) : list Z := map Z.of_nat (seq 1 (Z.to_nat (alen (m_tet m) - 1))).
Definition liveb (m : mesh) (k : Z) : bool := (1 <=? k) && (k <? alen (m_tet m)) && (0 <? qv (aget (m_tet m) k) 0).
Definition L4 : list Z := [0; 1; 2; 3].
Lemma live_ks m k : live m k -> In k (ks m).
Proof. intros [H _]. apply in_map_iff. exists (Z.to_nat k). split; [lia|]. apply in_seq. lia. Qed.
Lemma liveb_ok m k : liveb m k = true <-> live m k.
Proof. unfold liveb, live. rewrite !andb_true_iff, Z.leb_le, !Z.ltb_lt. tauto. Qed.
Lemma L4_ok i : loc i <-> In i L4.
Proof. unfold loc, L4. cbn. intuition. Qed.

Definition mem (x : Z) (l : list Z) : bool := existsb (Z.eqb x) l.
Lemma mem_ok x l : mem x l = true <-> In x l.
Proof. unfold mem. rewrite existsb_exists. split; [intros (y & I & E); apply Z.eqb_eq in E; subst; exact I|intros I; exists x; split; [exact I|apply Z.eqb_refl]]. Qed.
Definition sameb (l r : list Z) : bool := forallb (fun x => mem x r) l && forallb (fun x => mem x l) r.
Lemma sameb_ok l r : sameb l r = true <-> forall x, In x l <-> In x r.
Proof.
  unfold sameb. rewrite andb_true_iff, !forallb_forall. split.
  - intros [H1 H2] x. split; intros I; apply mem_ok; auto.
  - intros H. split; intros x I; apply mem_ok, H, I.
Qed.
Definition fsame (m : mesh) (k i l j : Z) : bool := sameb (fpts m k i) (fpts m l j).
Lemma fsame_ok m k i l j : loc i -> loc j -> (fsame m k i l j = true <-> same_face m k i l j).
Proof.
  intros Li Lj. unfold fsame. rewrite sameb_ok. unfold same_face. split; intros H x; specialize (H x); rewrite !fpts_ok in * by assumption; exact H.
Qed.
Definition vs (m : mesh) (k : Z) : list Z := map (vtx m k) L4.
Lemma vs_ok m k x : In x (vs m k) <-> has m k x.
Proof. unfold vs. rewrite in_map_iff. split; intros (a & H1 & H2); exists a; rewrite L4_ok in *; auto. Qed.

(** Quantifiers on the tetrahedra in use and on the local numbers. *)
Definition all_k (m : mesh) (f : Z -> bool) : bool := forallb (fun k => negb (liveb m k) || f k) (ks m).
Definition all_i (f : Z -> bool) : bool := forallb f L4.
Lemma all_k_ok m f : all_k m f = true -> forall k, live m k -> f k = true.
Proof.
  unfold all_k. rewrite forallb_forall. intros H k L. specialize (H k (live_ks m k L)). apply liveb_ok in L. rewrite L in H. exact H.
Qed.
Lemma all_i_ok f : all_i f = true -> forall i, loc i -> f i = true.
Proof. unfold all_i. rewrite forallb_forall. intros H i L. apply H, L4_ok, L. Qed.

Definition vob (m : mesh) : bool := all_k m (fun k => all_i (fun a => (0 <? vtx m k a) && all_i (fun b => negb (vtx m k a =? vtx m k b) || (a =? b)))).
Lemma vob_ok m : vob m = true -> vertices_ok m.
Proof.
  intros H k L. pose proof (all_k_ok m _ H k L) as K. split.
  - intros a La. pose proof (all_i_ok _ K a La) as Ka. cbv beta in Ka. apply andb_true_iff in Ka. apply Z.ltb_lt, Ka.
  - intros a b La Lb E. pose proof (all_i_ok _ K a La) as Ka. cbv beta in Ka. apply andb_true_iff in Ka. destruct Ka as [_ Ka].
    pose proof (all_i_ok _ Ka b Lb) as Kb. cbv beta in Kb. rewrite E, Z.eqb_refl in Kb. apply Z.eqb_eq, Kb.
Qed.

Definition adjb (m : mesh) : bool :=
  all_k m (fun k => all_i (fun i =>
    all_k m (fun l => all_i (fun j => (l =? k) || negb (fsame m k i l j) || (nb m k i =? 4 * l + j))) &&
    ((nb m k i =? 0) || (liveb m (nb m k i / 4) && negb (nb m k i / 4 =? k) && fsame m k i (nb m k i / 4) (nb m k i mod 4))))).
Lemma adjb_ok m : vertices_ok m -> adjb m = true -> adjacent m.
Proof.
  intros V H. apply adjacent_by; [exact V| |].
  - intros k i l j Lk Li Ll Lj N S. pose proof (all_i_ok _ (all_k_ok m _ H k Lk) i Li) as K. cbv beta in K. apply andb_true_iff in K. destruct K as [K _].
    pose proof (all_i_ok _ (all_k_ok m _ K l Ll) j Lj) as K2. cbv beta in K2. rewrite (proj2 (Z.eqb_neq l k) N), (proj2 (fsame_ok m k i l j Li Lj) S) in K2. cbn in K2. apply Z.eqb_eq, K2.
  - intros k i Lk Li NZ. pose proof (all_i_ok _ (all_k_ok m _ H k Lk) i Li) as K. cbv beta in K. apply andb_true_iff in K. destruct K as [_ K].
    rewrite (proj2 (Z.eqb_neq _ 0) NZ) in K. cbn [orb] in K. rewrite !andb_true_iff, liveb_ok, negb_true_iff, Z.eqb_neq in K. destruct K as [[K1 K2] K3].
    exists (nb m k i / 4), (nb m k i mod 4). split; [exact K1|]. split; [apply loc_mod|]. split; [apply Z.div_mod; lia|]. split; [exact K2|].
    apply fsame_ok; [exact Li|apply loc_mod|exact K3].
Qed.

Fixpoint chainb (m : mesh) (fuel : nat) (seen : list Z) (n : Z) : bool :=
  match fuel with
  | O => false
  | S f => (n =? 0) || ((1 <=? n) && (n <? m_nemax m) && negb (liveb m n) && negb (mem n seen) && chainb m f (n :: seen) (vtx m n 3))
  end.
Fixpoint chainl (m : mesh) (fuel : nat) (n : Z) : list Z :=
  match fuel with O => [] | S f => if n =? 0 then [] else n :: chainl m f (vtx m n 3) end.
Lemma chainb_ok m fuel : forall seen n, chainb m fuel seen n = true -> chain m n (chainl m fuel n) /\ forall x, In x seen -> ~ In x (chainl m fuel n).
Proof.
  induction fuel as [|f IH]; intros seen n H; [discriminate|]. cbn in H. apply orb_true_iff in H. destruct H as [H|H].
  - apply Z.eqb_eq in H. subst. cbn. split; [constructor|auto].
  - rewrite !andb_true_iff, !negb_true_iff, Z.leb_le, Z.ltb_lt in H. destruct H as [[[[H1 H2] H3] H4] H5].
    destruct (IH _ _ H5) as (C & D). cbn [chainl]. rewrite (proj2 (Z.eqb_neq n 0)) by lia. split.
    + constructor; [lia| |apply D; left; reflexivity|exact C]. intros L. apply liveb_ok in L. congruence.
    + intros x Ix [->|I]; [apply mem_ok in Ix; congruence|]. apply (D x); [right; exact Ix|exact I].
Qed.
Definition tabb (m : mesh) : bool :=
  (alen (m_tet m) =? m_nemax m + 1) && (alen (m_adj m) =? 4 * m_nemax m + 5) && (0 <=? m_ne m) && (m_ne m <? m_nemax m) && (vtx m (m_nemax m) 3 =? 0) &&
  all_k m (fun k => k <=? m_ne m) && chainb m (S (Z.to_nat (m_nemax m))) [] (m_nil m) && forallb (fun gb => 1 <=? fst gb) (m_gaps m) &&
  forallb (fun k => liveb m k || mem k (chainl m (S (Z.to_nat (m_nemax m))) (m_nil m))) (map Z.of_nat (seq 1 (Z.to_nat (m_nemax m - 1)))) && ((m_ne m =? 0) || liveb m (m_ne m)).
Lemma tabb_ok m : tabb m = true -> tables_ok m.
Proof.
  unfold tabb. rewrite !andb_true_iff, !Z.eqb_eq, Z.leb_le, Z.ltb_lt, !forallb_forall. intros [[[[[[[[[H1 H2] H3] H4] H5] H6] H7] H8] H9] HA].
  destruct (chainb_ok _ _ _ _ H7) as (C & _). split; [exact H1|]. split; [exact H2|]. split; [auto|]. split; [exact H5|].
  split; [intros k L; apply Z.leb_le; apply (all_k_ok m _ H6 k L)|]. split; [|split].
  - eexists. split; [exact C|]. intros k B. specialize (H9 k). rewrite orb_true_iff, liveb_ok, mem_ok in H9. apply H9.
    apply in_map_iff. exists (Z.to_nat k). split; [lia|]. apply in_seq. lia.
  - intros g b I. apply H8 in I. apply Z.leb_le, I.
  - apply orb_true_iff in HA. rewrite Z.eqb_eq, liveb_ok in HA. exact HA.
Qed.
Definition confb (m : mesh) : bool := tabb m && vob m && adjb m.
Lemma confb_ok m : confb m = true -> conforming m.
Proof.
  unfold confb. rewrite !andb_true_iff. intros [[H1 H2] H3]. split; [apply tabb_ok, H1|]. split; [apply vob_ok, H2|]. apply adjb_ok; [apply vob_ok, H2|exact H3].
Qed.

Definition ntb (m : mesh) : bool := all_k m (fun k => all_k m (fun l => negb (sameb (vs m k) (vs m l)) || (k =? l))).
Lemma ntb_ok m : ntb m = true -> no_twins m.
Proof.
  intros H k l Lk Ll E. pose proof (all_k_ok m _ (all_k_ok m _ H k Lk) l Ll) as K. cbv beta in K.
  rewrite (proj2 (sameb_ok (vs m k) (vs m l))) in K; [apply Z.eqb_eq, K|]. intros x. rewrite !vs_ok. apply E.
Qed.

Definition ctb (m : mesh) (p q : Z) : bool :=
  all_k m (fun k => all_i (fun i => all_k m (fun l => all_i (fun j =>
    negb (mem p (fpts m k i)) || negb (mem q (fpts m l j)) || mem q (fpts m k i) || mem p (fpts m l j) ||
    negb (sameb (map (ren p q) (fpts m k i)) (fpts m l j)) ||
    existsb (fun s => liveb m s && mem p (vs m s) && mem q (vs m s) && forallb (fun x => mem x (vs m s)) (fpts m k i)) (ks m))))).
Lemma ctb_ok m p q : ctb m p q = true -> contractible m p q.
Proof.
  intros H k i l j Lk Ll Li Lj P Q O NQ NP. pose proof (all_i_ok _ (all_k_ok m _ (all_i_ok _ (all_k_ok m _ H k Lk) i Li) l Ll) j Lj) as K. cbv beta in K.
  rewrite <- fpts_ok in P, Q, NQ, NP by assumption. rewrite (proj2 (mem_ok _ _) P), (proj2 (mem_ok _ _) Q) in K. cbn [negb orb] in K.
  rewrite <- mem_ok in NQ, NP. apply not_true_is_false in NQ, NP. rewrite NQ, NP in K. cbn [orb] in K.
  assert (PQ : p <> q) by (intros ->; apply mem_ok in P; congruence).
  rewrite (proj2 (sameb_ok _ _)) in K.
  - cbn [negb orb] in K. apply existsb_exists in K. destruct K as (s & _ & K). rewrite !andb_true_iff, liveb_ok, !mem_ok, !vs_ok, forallb_forall in K. destruct K as [[[K1 K2] K3] K4].
    exists s. repeat split; auto; try apply K1. intros x Ox. apply vs_ok, mem_ok, K4, fpts_ok; assumption.
  - assert (NQ' : ~ In q (fpts m k i)) by (rewrite <- mem_ok; congruence). assert (NP' : ~ In p (fpts m l j)) by (rewrite <- mem_ok; congruence).
    assert (O' : forall x, x <> p -> x <> q -> (In x (fpts m k i) <-> In x (fpts m l j))) by (intros x X1 X2; rewrite !fpts_ok by assumption; apply O; assumption).
    intros x. rewrite in_map_iff. split.
    + intros (y & E & I). unfold ren in E. destruct (Z.eqb_spec y p); [subst; exact Q|]. subst y. apply O'; [assumption|intros ->; contradiction|exact I].
    + intros I. destruct (Z.eq_dec x q) as [->|Nq]; [exists p; split; [unfold ren; rewrite Z.eqb_refl; reflexivity|exact P]|].
      assert (Np : x <> p) by (intros ->; contradiction). exists x. split; [unfold ren; destruct (Z.eqb_spec x p); [contradiction|reflexivity]|]. apply O'; assumption.
Qed.

(** ** Connection through faces *)
Definition meet1b (m : mesh) (p y z : Z) : bool := existsb (fun i => mem p (fpts m y i) && existsb (fun j => fsame m y i z j) L4) L4.
Definition grow (m : mesh) (p : Z) (s : list Z) : list Z :=
  s ++ filter (fun z => liveb m z && existsb (fun y => meet1b m p y z) s) (ks m).
Fixpoint growth (m : mesh) (p : Z) (n : nat) (s : list Z) : list Z := match n with O => s | S n => growth m p n (grow m p s) end.
Lemma growth_ok m p x n : forall s, (forall y, In y s -> ball m p x y) -> forall y, In y (growth m p n s) -> ball m p x y.
Proof.
  induction n as [|n IH]; intros s H y I; [apply H, I|]. apply (IH (grow m p s)); [|exact I]. intros z Iz. unfold grow in Iz. apply in_app_or in Iz.
  destruct Iz as [Iz|Iz]; [apply H, Iz|]. apply filter_In in Iz. destruct Iz as [_ Iz]. rewrite andb_true_iff, liveb_ok, existsb_exists in Iz. destruct Iz as [Lz (u & Iu & Mu)].
  apply (reach_step _ _ _ u); [apply H, Iu|exact Lz|]. unfold meet1b in Mu. apply existsb_exists in Mu. destruct Mu as (i & Ii & Mu). apply andb_true_iff in Mu. destruct Mu as [M1 M2].
  apply existsb_exists in M2. destruct M2 as (j & Ij & M2). apply L4_ok in Ii, Ij. exists i, j. rewrite mem_ok, fpts_ok in M1 by exact Ii. rewrite fsame_ok in M2 by assumption. auto.
Qed.
Definition bcb (m : mesh) (p : Z) (n : nat) : bool :=
  all_k m (fun x => all_k m (fun y => negb (mem p (vs m x)) || negb (mem p (vs m y)) || mem y (growth m p n [x]))).
Lemma bcb_ok m p n : bcb m p n = true -> ball_connected m p.
Proof.
  intros H x y Lx Ly Px Py. pose proof (all_k_ok m _ (all_k_ok m _ H x Lx) y Ly) as K. cbv beta in K.
  rewrite (proj2 (mem_ok _ _) (proj2 (vs_ok m x p) Px)), (proj2 (mem_ok _ _) (proj2 (vs_ok m y p) Py)) in K. cbn [negb orb] in K.
  apply (growth_ok m p x n [x]); [|apply mem_ok, K]. intros z [<-|[]]. constructor.
Qed.

Definition flb (m : mesh) : bool := all_k m (fun k => qflag (aget (m_tet m) k) <=? m_base m).
Lemma flb_ok m : flb m = true -> flags_ok m.
Proof. intros H k L. apply Z.leb_le. apply (all_k_ok m _ H k L). Qed.

(** A mesh from the vertices, tags and boundary tetrahedra of its tetrahedra, its adjacency, and its boundary tetrahedra. *)
Definition vrow (l : list Z) : Z -> Z := fun i => nth (Z.to_nat i) l 0.
Definition build (nemax : Z) (tets : list (list Z * Z * Z)) (adjs : list Z) (xs : list xtet) : mesh :=
  let ne := Z.of_nat (length tets) in
  mkMesh (mkArr (nemax + 1) (fun k => if (1 <=? k) && (k <=? ne) then (let '(v, g, x) := nth (Z.to_nat (k - 1)) tets ([], 0, 0) in mkTet (vrow v) 7 g x 0)
     else if (ne <? k) && (k <? nemax - 1) then mkTet (upd (fun _ => 0) 3 (k + 1)) 0 0 0 0 else tzero))
    (mkArr (4 * nemax + 5) (fun k => if 1 <=? k then nth (Z.to_nat (k - 1)) adjs 0 else 0))
    (mkArr (Z.of_nat (length xs) + 1) (fun k => if 1 <=? k then nth (Z.to_nat (k - 1)) xs xzero else xzero))
    (if ne <? nemax - 1 then ne + 1 else 0) ne nemax 0 (Z.of_nat (length xs)) [] [].

(** A run gives a result that satisfies a test. *)
Definition runs {B} (o : outcome B) (P : B -> bool) : bool := match o with Ret b => P b | Stuck => false end.
Lemma runs_ok {B} (o : outcome B) P : runs o P = true -> exists b, o = Ret b /\ P b = true.
Proof. destruct o as [b|]; [|discriminate]. intros H. exists b. auto. Qed.
