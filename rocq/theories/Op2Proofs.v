(** Proofs about the local operators of a triangular mesh. *)
From Coq Require Import ZArith List Lia Bool.
From Verif Require Import CBase Op2Model Op2Spec.
Import ListNotations.
Open Scope Z_scope.

(** ** Local numbers *)

Lemma loc_nxt i : loc i -> loc (inxt2 i).
Proof. unfold loc; intros [->|[->| ->]]; cbn; auto. Qed.
Lemma loc_prv i : loc i -> loc (iprv2 i).
Proof. unfold loc; intros [->|[->| ->]]; cbn; auto. Qed.
Lemma nxt_mod i : loc i -> (i + 1) mod 3 = inxt2 i.
Proof. intros [->|[->| ->]]; reflexivity. Qed.
Lemma prv_mod i : loc i -> (i + 2) mod 3 = iprv2 i.
Proof. intros [->|[->| ->]]; reflexivity. Qed.
Lemma nxt_nxt i : loc i -> inxt2 (inxt2 i) = iprv2 i.
Proof. intros [->|[->| ->]]; reflexivity. Qed.
Lemma nxt_prv i : loc i -> inxt2 (iprv2 i) = i.
Proof. intros [->|[->| ->]]; reflexivity. Qed.
Lemma prv_nxt i : loc i -> iprv2 (inxt2 i) = i.
Proof. intros [->|[->| ->]]; reflexivity. Qed.
Lemma prv_prv i : loc i -> iprv2 (iprv2 i) = inxt2 i.
Proof. intros [->|[->| ->]]; reflexivity. Qed.
Lemma nxt_neq i : loc i -> inxt2 i <> i.
Proof. intros [->|[->| ->]]; cbn; lia. Qed.
Lemma prv_neq i : loc i -> iprv2 i <> i.
Proof. intros [->|[->| ->]]; cbn; lia. Qed.
Lemma nxt_neq_prv i : loc i -> inxt2 i <> iprv2 i.
Proof. intros [->|[->| ->]]; cbn; lia. Qed.
Lemma loc_cases i x : loc i -> loc x -> x = i \/ x = inxt2 i \/ x = iprv2 i.
Proof. intros [->|[->| ->]] [->|[->| ->]]; cbn; lia. Qed.
Lemma loc_le i : loc i -> 0 <= i <= 2.
Proof. unfold loc; lia. Qed.

Lemma dec_div l j : loc j -> (3 * l + j) / 3 = l.
Proof. intros H. apply loc_le in H. symmetry. apply Z.div_unique with j; lia. Qed.
Lemma dec_mod l j : loc j -> (3 * l + j) mod 3 = j.
Proof. intros H. apply loc_le in H. symmetry. apply Z.mod_unique with l; lia. Qed.

Lemma loc_mod x : loc (x mod 3).
Proof. pose proof (Z.mod_pos_bound x 3). unfold loc. lia. Qed.

Lemma apos_inj k i l j : loc i -> loc j -> 3 * (k - 1) + 1 + i = 3 * (l - 1) + 1 + j -> k = l /\ i = j.
Proof. unfold loc. lia. Qed.

(** ** Pure versions of the writes *)

Definition pv (m : mesh) (k i x : Z) : mesh :=
  let t := aget (m_tri m) k in
  p_tri m (mkArr (alen (m_tri m)) (upd (aget (m_tri m)) k (mkTria (upd (tv t) i x) (ttag t) (tedg t) (tref t)))).
Definition ptg (m : mesh) (k i x : Z) : mesh :=
  let t := aget (m_tri m) k in
  p_tri m (mkArr (alen (m_tri m)) (upd (aget (m_tri m)) k (mkTria (tv t) (upd (ttag t) i x) (tedg t) (tref t)))).
Definition ped (m : mesh) (k i x : Z) : mesh :=
  let t := aget (m_tri m) k in
  p_tri m (mkArr (alen (m_tri m)) (upd (aget (m_tri m)) k (mkTria (tv t) (ttag t) (upd (tedg t) i x) (tref t)))).
Definition pa (m : mesh) (k i x : Z) : mesh :=
  p_adjs m (mkArr (alen (m_adj m)) (upd (aget (m_adj m)) (3 * (k - 1) + 1 + i) x)).
Definition pp (m : mesh) (p x : Z) : mesh :=
  p_pts m (mkArr (alen (m_ptag m)) (upd (aget (m_ptag m)) p x)).

(** Triangle [k] is in both tables. *)
Definition intab (m : mesh) (k : Z) : Prop :=
  0 <= k < alen (m_tri m) /\ 1 <= k /\ 3 * k < alen (m_adj m).

Lemma get_t_ok m k : intab m k -> get_t m k = Ret (aget (m_tri m) k).
Proof. intros H. apply rd_ok. apply H. Qed.
Lemma set_t_ok m k t : intab m k ->
  set_t m k t = Ret (p_tri m (mkArr (alen (m_tri m)) (upd (aget (m_tri m)) k t))).
Proof. intros H. unfold set_t. rewrite wr_ok by apply H. reflexivity. Qed.
Lemma set_v_ok m k i x : intab m k -> set_v m k i x = Ret (pv m k i x).
Proof. intros H. unfold set_v. rewrite get_t_ok by exact H. cbn [bind]. rewrite set_t_ok by exact H. reflexivity. Qed.
Lemma set_tag_ok m k i x : intab m k -> set_tag m k i x = Ret (ptg m k i x).
Proof. intros H. unfold set_tag. rewrite get_t_ok by exact H. cbn [bind]. rewrite set_t_ok by exact H. reflexivity. Qed.
Lemma set_edg_ok m k i x : intab m k -> set_edg m k i x = Ret (ped m k i x).
Proof. intros H. unfold set_edg. rewrite get_t_ok by exact H. cbn [bind]. rewrite set_t_ok by exact H. reflexivity. Qed.
Lemma get_adj_ok m k i : intab m k -> loc i -> get_adj m k i = Ret (nb m k i).
Proof. intros H L. apply rd_ok. unfold intab, loc in *. lia. Qed.
Lemma set_adj_ok m k i x : intab m k -> loc i -> set_adj m k i x = Ret (pa m k i x).
Proof. intros H L. unfold set_adj. rewrite wr_ok by (unfold intab, loc in *; lia). reflexivity. Qed.

Lemma intab_pv m k i x l : intab (pv m k i x) l <-> intab m l.
Proof. reflexivity. Qed.
Lemma intab_ptg m k i x l : intab (ptg m k i x) l <-> intab m l.
Proof. reflexivity. Qed.
Lemma intab_ped m k i x l : intab (ped m k i x) l <-> intab m l.
Proof. reflexivity. Qed.
Lemma intab_pa m k i x l : intab (pa m k i x) l <-> intab m l.
Proof. reflexivity. Qed.
Lemma intab_pp m k x l : intab (pp m k x) l <-> intab m l.
Proof. reflexivity. Qed.

(** Views of the writes. *)
Definition at2 (k i l j : Z) : bool := (l =? k) && (j =? i).

Lemma at2_same k i : at2 k i k i = true.
Proof. unfold at2. rewrite !Z.eqb_refl. reflexivity. Qed.
Lemma at2_k k i l j : l <> k -> at2 k i l j = false.
Proof. unfold at2. intros. destruct (Z.eqb_spec l k); [contradiction|reflexivity]. Qed.
Lemma at2_i k i l j : j <> i -> at2 k i l j = false.
Proof. unfold at2. intros. destruct (Z.eqb_spec j i); [contradiction|apply andb_false_r]. Qed.
Lemma at2_spec k i l j : at2 k i l j = true <-> l = k /\ j = i.
Proof. unfold at2. rewrite andb_true_iff, !Z.eqb_eq. reflexivity. Qed.

Ltac view := unfold vtx, tag, edg, nb, pv, ptg, ped, pa, pp, at2; cbn; unfold upd;
  repeat match goal with |- context [?a =? ?b] => destruct (Z.eqb_spec a b) end; cbn; try reflexivity; try congruence.

Lemma vtx_pv m k i x l j : vtx (pv m k i x) l j = if at2 k i l j then x else vtx m l j.
Proof. unfold vtx, pv, at2, upd; cbn. destruct (Z.eqb_spec l k); cbn; subst; reflexivity. Qed.
Lemma vtx_ptg m k i x l j : vtx (ptg m k i x) l j = vtx m l j.
Proof. unfold vtx, ptg, upd; cbn. destruct (Z.eqb_spec l k); cbn; subst; reflexivity. Qed.
Lemma vtx_ped m k i x l j : vtx (ped m k i x) l j = vtx m l j.
Proof. unfold vtx, ped, upd; cbn. destruct (Z.eqb_spec l k); cbn; subst; reflexivity. Qed.
Lemma vtx_pa m k i x l j : vtx (pa m k i x) l j = vtx m l j.
Proof. reflexivity. Qed.
Lemma vtx_pp m k x l j : vtx (pp m k x) l j = vtx m l j.
Proof. reflexivity. Qed.
Lemma tag_pv m k i x l j : tag (pv m k i x) l j = tag m l j.
Proof. unfold tag, pv, upd; cbn. destruct (Z.eqb_spec l k); cbn; subst; reflexivity. Qed.
Lemma tag_ptg m k i x l j : tag (ptg m k i x) l j = if at2 k i l j then x else tag m l j.
Proof. unfold tag, ptg, at2, upd; cbn. destruct (Z.eqb_spec l k); cbn; subst; reflexivity. Qed.
Lemma tag_ped m k i x l j : tag (ped m k i x) l j = tag m l j.
Proof. unfold tag, ped, upd; cbn. destruct (Z.eqb_spec l k); cbn; subst; reflexivity. Qed.
Lemma tag_pa m k i x l j : tag (pa m k i x) l j = tag m l j.
Proof. reflexivity. Qed.
Lemma tag_pp m k x l j : tag (pp m k x) l j = tag m l j.
Proof. reflexivity. Qed.
Lemma edg_pv m k i x l j : edg (pv m k i x) l j = edg m l j.
Proof. unfold edg, pv, upd; cbn. destruct (Z.eqb_spec l k); cbn; subst; reflexivity. Qed.
Lemma edg_ped m k i x l j : edg (ped m k i x) l j = if at2 k i l j then x else edg m l j.
Proof. unfold edg, ped, at2, upd; cbn. destruct (Z.eqb_spec l k); cbn; subst; reflexivity. Qed.
Lemma edg_ptg m k i x l j : edg (ptg m k i x) l j = edg m l j.
Proof. unfold edg, ptg, upd; cbn. destruct (Z.eqb_spec l k); cbn; subst; reflexivity. Qed.
Lemma edg_pa m k i x l j : edg (pa m k i x) l j = edg m l j.
Proof. reflexivity. Qed.
Lemma edg_pp m k x l j : edg (pp m k x) l j = edg m l j.
Proof. reflexivity. Qed.
Lemma nb_pv m k i x l j : nb (pv m k i x) l j = nb m l j.
Proof. reflexivity. Qed.
Lemma nb_ptg m k i x l j : nb (ptg m k i x) l j = nb m l j.
Proof. reflexivity. Qed.
Lemma nb_ped m k i x l j : nb (ped m k i x) l j = nb m l j.
Proof. reflexivity. Qed.
Lemma nb_pp m k x l j : nb (pp m k x) l j = nb m l j.
Proof. reflexivity. Qed.
Lemma nb_pa m k i x l j : loc i -> loc j -> nb (pa m k i x) l j = if at2 k i l j then x else nb m l j.
Proof.
  intros Li Lj. unfold nb, pa, upd, at2; cbn [aget m_adj p_adjs].
  destruct (Z.eqb_spec (3 * (l - 1) + 1 + j) (3 * (k - 1) + 1 + i)) as [E|N].
  - destruct (apos_inj _ _ _ _ Lj Li E) as [-> ->]. rewrite !Z.eqb_refl. reflexivity.
  - destruct (Z.eqb_spec l k), (Z.eqb_spec j i); cbn [andb]; subst; reflexivity || (exfalso; apply N; reflexivity).
Qed.

Lemma ends_eq m k i : loc i -> ends m k i = (vtx m k (inxt2 i), vtx m k (iprv2 i)).
Proof. intros L. unfold ends. rewrite nxt_mod, prv_mod by exact L. reflexivity. Qed.

Lemma live_intab m k : tables_ok m -> live m k -> intab m k.
Proof. unfold tables_ok, live, intab. intros (A & B & C & D & E & F) [H1 H2]. specialize (E k (conj H1 H2)). lia. Qed.

(** ** Consequences of conformity *)

Lemma swp_swp e : swp (swp e) = e.
Proof. destruct e; reflexivity. Qed.

Lemma adj_sym m k i : oriented m -> adjacent m -> live m k -> loc i -> nb m k i <> 0 ->
  exists l j, live m l /\ loc j /\ nb m k i = 3 * l + j /\ nb m l j = 3 * k + i /\ ends m l j = swp (ends m k i).
Proof.
  intros O A Lk Li N. destruct (A k i Lk Li) as [[E _]|(l & j & Ll & Lj & E & F)]; [contradiction|].
  exists l, j. repeat split; try assumption; try apply Ll.
  destruct (A l j Ll Lj) as [[_ H]|(k' & i' & Lk' & Li' & E' & F')].
  - exfalso. apply (H k i Lk Li). rewrite F. symmetry. apply swp_swp.
  - rewrite F, swp_swp in F'. destruct (O _ _ _ _ Lk' Lk Li' Li F') as [-> ->]. exact E'.
Qed.

Lemma conforming_symmetric m : oriented m -> adjacent m -> symmetric m.
Proof.
  intros O A k i Lk Li N. destruct (adj_sym m k i O A Lk Li N) as (l & j & Ll & Lj & E & S & _).
  rewrite E, dec_div, dec_mod by exact Lj. split; assumption.
Qed.

(** ** Surgery: what has to be checked when the half-edges of [D] are changed *)

Section Surgery.
Variables (m m' : mesh) (D : Z -> Z -> Prop).
Hypothesis Hori : oriented m.
Hypothesis Hadj : adjacent m.
Hypothesis Hdec : forall k i, D k i \/ ~ D k i.
(** Outside [D] nothing changes. *)
Hypothesis Hout : forall k i, live m' k -> loc i -> ~ D k i ->
  live m k /\ ends m' k i = ends m k i /\ nb m' k i = nb m k i.
Hypothesis Hkeep : forall k i, live m k -> loc i -> ~ D k i -> live m' k.
(** [D] contains the neighbours of its half-edges. *)
Hypothesis Hclos : forall k i l j, live m k -> loc i -> D k i -> live m l -> loc j -> nb m k i = 3 * l + j -> D l j.
(** The new edges of [D]. *)
Hypothesis Hnew : forall k i, live m' k -> loc i -> D k i ->
  (exists l j, live m l /\ loc j /\ D l j /\ ends m l j = ends m' k i) \/
  (forall l j, live m l -> loc j -> ends m l j <> ends m' k i /\ ends m l j <> swp (ends m' k i)).
Hypothesis Huni : forall k i l j, live m' k -> loc i -> D k i -> live m' l -> loc j -> D l j ->
  ends m' k i = ends m' l j -> k = l /\ i = j.
Hypothesis Hadj' : forall k i, live m' k -> loc i -> D k i ->
  (nb m' k i = 0 /\
   ((exists l j, live m l /\ loc j /\ nb m l j = 0 /\ ends m l j = ends m' k i) \/
    (forall l j, live m l -> loc j -> ends m l j <> swp (ends m' k i))) /\
   (forall l j, live m' l -> loc j -> D l j -> ends m' l j <> swp (ends m' k i))) \/
  (exists l j, live m' l /\ loc j /\ nb m' k i = 3 * l + j /\ ends m' l j = swp (ends m' k i)).

Lemma surgery_oriented : oriented m'.
Proof.
  intros k i l j Lk Ll Li Lj E.
  assert (W : forall k i l j, live m' k -> live m' l -> loc i -> loc j -> ends m' k i = ends m' l j -> D k i -> ~ D l j -> False).
  { clear - Hori Hout Hnew. intros k i l j Lk Ll Li Lj E Dk Dl.
    destruct (Hout l j Ll Lj Dl) as (Ll0 & El & _).
    destruct (Hnew k i Lk Li Dk) as [(l0 & j0 & L0 & Lj0 & D0 & E0)|F].
    - destruct (Hori l0 j0 l j L0 Ll0 Lj0 Lj) as [-> ->]; [congruence|contradiction].
    - destruct (F l j Ll0 Lj) as [F1 _]. apply F1. congruence. }
  destruct (Hdec k i) as [Dk|Dk], (Hdec l j) as [Dl|Dl].
  - apply Huni; assumption.
  - exfalso. eapply (W k i l j); eassumption.
  - exfalso. eapply (W l j k i); try eassumption. congruence.
  - destruct (Hout k i Lk Li Dk) as (Lk0 & Ek & _), (Hout l j Ll Lj Dl) as (Ll0 & El & _).
    apply Hori; congruence || assumption.
Qed.

Lemma surgery_adjacent : adjacent m'.
Proof.
  intros k i Lk Li. destruct (Hdec k i) as [Dk|Dk].
  - destruct (Hadj' k i Lk Li Dk) as [(N & Old & InD)|R]; [left|right; exact R].
    split; [exact N|]. intros l j Ll Lj E. destruct (Hdec l j) as [Dl|Dl]; [exact (InD l j Ll Lj Dl E)|].
    destruct (Hout l j Ll Lj Dl) as (Ll0 & El & _).
    destruct Old as [(k0 & i0 & L0 & Li0 & N0 & E0)|Old].
    + destruct (Hadj k0 i0 L0 Li0) as [[_ H]|(l1 & j1 & L1 & Lj1 & E1 & _)].
      * apply (H l j Ll0 Lj). congruence.
      * pose proof (loc_le _ Lj1). unfold live in L1. lia.
    + apply (Old l j Ll0 Lj). congruence.
  - destruct (Hout k i Lk Li Dk) as (Lk0 & Ek & Nk). rewrite Ek, Nk.
    destruct (Hadj k i Lk0 Li) as [[N H]|(l & j & Ll & Lj & E & F)].
    + left. split; [exact N|]. intros l j Ll Lj E. destruct (Hdec l j) as [Dl|Dl].
      * destruct (Hnew l j Ll Lj Dl) as [(l0 & j0 & L0 & Lj0 & D0 & E0)|Fr].
        -- apply (H l0 j0 L0 Lj0). congruence.
        -- destruct (Fr k i Lk0 Li) as [_ F2]. apply F2. rewrite E, swp_swp. reflexivity.
      * destruct (Hout l j Ll Lj Dl) as (Ll0 & El & _). apply (H l j Ll0 Lj). congruence.
    + right. exists l, j. destruct (Hdec l j) as [Dl|Dl].
      * exfalso. apply Dk. apply (Hclos l j k i Ll Lj Dl Lk0 Li).
        assert (N0 : nb m k i <> 0) by (pose proof (loc_le _ Lj); unfold live in Ll; lia).
        destruct (adj_sym m k i Hori Hadj Lk0 Li N0) as (l' & j' & Ll' & Lj' & E' & S' & F').
        assert (l = l' /\ j = j') as [-> ->] by (pose proof (loc_le _ Lj); pose proof (loc_le _ Lj'); lia).
        exact S'.
      * pose proof (Hkeep l j Ll Lj Dl) as Ll'. destruct (Hout l j Ll' Lj Dl) as (_ & El & _).
        repeat split; try assumption; try apply Ll'. congruence.
Qed.

Hypothesis Htag : tags_agree m.
Hypothesis Hout_tag : forall k i, live m' k -> loc i -> ~ D k i -> tag m' k i = tag m k i /\ edg m' k i = edg m k i.
Hypothesis HD_tag : forall k i l j, live m' k -> loc i -> D k i -> live m' l -> loc j -> nb m' k i = 3 * l + j ->
  tag m' l j = tag m' k i /\ edg m' l j = edg m' k i.

Lemma surgery_tags : tags_agree m'.
Proof.
  intros k i Lk Li N. destruct (adj_sym m' k i surgery_oriented surgery_adjacent Lk Li N) as (l & j & Ll & Lj & E & S & _).
  rewrite E, dec_div, dec_mod by exact Lj. destruct (Hdec k i) as [Dk|Dk]; [apply (HD_tag k i l j); assumption|].
  destruct (Hdec l j) as [Dl|Dl].
  - destruct (HD_tag l j k i) as [A B]; try assumption. split; congruence.
  - destruct (Hout k i Lk Li Dk) as (Lk0 & _ & Nk), (Hout l j Ll Lj Dl) as (Ll0 & _ & _).
    destruct (Hout_tag k i Lk Li Dk) as [A B], (Hout_tag l j Ll Lj Dl) as [A' B']. rewrite A, B, A', B'.
    assert (N0 : nb m k i <> 0) by congruence. destruct (Htag k i Lk0 Li N0) as [C1 C2].
    rewrite <- Nk, E, dec_div, dec_mod in C1, C2 by exact Lj. split; assumption.
Qed.
End Surgery.

(** ** Conditional writes of the adjacency *)

Definition paif (b : bool) (m : mesh) (k i x : Z) : mesh := if b then pa m k i x else m.

Lemma set_adj_if b m k i x : (b = true -> intab m k /\ loc i) ->
  (if b then set_adj m k i x else Ret m) = Ret (paif b m k i x).
Proof. intros H. destruct b; [|reflexivity]. destruct (H eq_refl). apply set_adj_ok; assumption. Qed.
Lemma intab_paif b m k i x l : intab m l -> intab (paif b m k i x) l.
Proof. destruct b; exact (fun H => H). Qed.
Lemma vtx_paif b m k i x l j : vtx (paif b m k i x) l j = vtx m l j.
Proof. destruct b; reflexivity. Qed.
Lemma tag_paif b m k i x l j : tag (paif b m k i x) l j = tag m l j.
Proof. destruct b; reflexivity. Qed.
Lemma edg_paif b m k i x l j : edg (paif b m k i x) l j = edg m l j.
Proof. destruct b; reflexivity. Qed.
Lemma nb_paif b m k i x l j : (b = true -> loc i) -> loc j ->
  nb (paif b m k i x) l j = if b && at2 k i l j then x else nb m l j.
Proof. destruct b; cbn [andb paif]; intros H Lj; [apply nb_pa; auto|reflexivity]. Qed.

(** What the writes of triangles and adjacencies never change. *)
Definition same_frame (m m' : mesh) : Prop :=
  alen (m_tri m') = alen (m_tri m) /\ alen (m_adj m') = alen (m_adj m) /\ m_ptag m' = m_ptag m /\
  m_nil m' = m_nil m /\ m_nt m' = m_nt m /\ m_ntmax m' = m_ntmax m /\ m_gaps m' = m_gaps m.

Lemma same_refl m : same_frame m m.
Proof. repeat split. Qed.
Lemma same_trans a b c : same_frame a b -> same_frame b c -> same_frame a c.
Proof. unfold same_frame. intuition congruence. Qed.
Lemma same_paif b m k i x : same_frame m (paif b m k i x).
Proof. destruct b; repeat split. Qed.
Lemma same_pv m k i x : same_frame m (pv m k i x). Proof. repeat split. Qed.
Lemma same_ptg m k i x : same_frame m (ptg m k i x). Proof. repeat split. Qed.
Lemma same_ped m k i x : same_frame m (ped m k i x). Proof. repeat split. Qed.
Lemma same_pa m k i x : same_frame m (pa m k i x). Proof. repeat split. Qed.

Ltac frames := repeat (first [apply same_refl | eapply same_trans; [|first [apply same_paif|apply same_pv|apply same_ptg|apply same_ped|apply same_pa]]]).

Lemma intab_frame m m' k : same_frame m m' -> intab m k -> intab m' k.
Proof. unfold same_frame, intab. intros (A & B & _). rewrite A, B. auto. Qed.

Ltac intabs := solve [eapply intab_frame; [|eassumption]; frames].
Ltac views := repeat (first [rewrite vtx_pv | rewrite vtx_ptg | rewrite vtx_ped | rewrite vtx_pa | rewrite vtx_paif | rewrite vtx_pp
  | rewrite tag_pv | rewrite tag_ptg | rewrite tag_ped | rewrite tag_pa | rewrite tag_paif | rewrite tag_pp
  | rewrite edg_pv | rewrite edg_ptg | rewrite edg_ped | rewrite edg_pa | rewrite edg_paif | rewrite edg_pp
  | rewrite nb_pv | rewrite nb_ptg | rewrite nb_ped | rewrite nb_pp
  | rewrite nb_pa by (assumption || auto using loc_nxt, loc_prv, loc_mod)
  | rewrite nb_paif by (assumption || auto using loc_nxt, loc_prv, loc_mod)]).

(** ** Edges and their triangles *)

Lemma dist3 m k i : vertices_ok m -> live m k -> loc i ->
  vtx m k i <> vtx m k (inxt2 i) /\ vtx m k (inxt2 i) <> vtx m k (iprv2 i) /\ vtx m k (iprv2 i) <> vtx m k i.
Proof.
  intros V L Li. destruct (V k L) as (_ & _ & _ & A & B & C). destruct Li as [->|[->| ->]]; cbn; auto.
Qed.

Lemma ends_nxt m k i : loc i -> ends m k (inxt2 i) = (vtx m k (iprv2 i), vtx m k i).
Proof. intros L. rewrite ends_eq by auto using loc_nxt. rewrite nxt_nxt, prv_nxt by exact L. reflexivity. Qed.
Lemma ends_prv m k i : loc i -> ends m k (iprv2 i) = (vtx m k i, vtx m k (inxt2 i)).
Proof. intros L. rewrite ends_eq by auto using loc_prv. rewrite nxt_prv, prv_prv by exact L. reflexivity. Qed.

(** Neighbours. *)
Definition nbr (m : mesh) (k i l j : Z) : Prop :=
  live m l /\ loc j /\ nb m k i = 3 * l + j /\ nb m l j = 3 * k + i /\ ends m l j = swp (ends m k i).

Lemma nbr_of m k i : oriented m -> adjacent m -> live m k -> loc i -> nb m k i <> 0 -> exists l j, nbr m k i l j.
Proof. exact (adj_sym m k i). Qed.

Lemma nbr_verts m k i l j : loc i -> nbr m k i l j ->
  vtx m l (inxt2 j) = vtx m k (iprv2 i) /\ vtx m l (iprv2 j) = vtx m k (inxt2 i).
Proof.
  intros Li (_ & Lj & _ & _ & E). rewrite ends_eq, ends_eq in E by assumption. cbn in E. inversion E. split; congruence.
Qed.

Lemma nbr_neq m k i l j : vertices_ok m -> live m k -> loc i -> nbr m k i l j -> l <> k.
Proof.
  intros V Lk Li N ->. destruct (nbr_verts _ _ _ _ _ Li N) as [A B]. destruct N as (_ & Lj & _).
  destruct (dist3 m k i V Lk Li) as (X & Y & Z0).
  destruct (loc_cases i j Li Lj) as [->|[->| ->]]; revert A B; rewrite ?nxt_nxt, ?prv_prv, ?nxt_prv, ?prv_nxt by exact Li; congruence.
Qed.

Lemma nb_pos m k i : adjacent m -> live m k -> loc i -> nb m k i = 0 \/ 3 <= nb m k i.
Proof.
  intros A Lk Li. destruct (A k i Lk Li) as [[E _]|(l & j & [Ll _] & Lj & E & _)]; [auto|].
  right. apply loc_le in Lj. lia.
Qed.

Lemma live_dec m k : live m k \/ ~ live m k.
Proof. unfold live. lia. Qed.
Lemma loc_dec i : loc i \/ ~ loc i.
Proof. unfold loc. lia. Qed.

(** The neighbour read in a table as a pair (quotient, remainder). *)
Lemma nb_read m k i : oriented m -> adjacent m -> live m k -> loc i ->
  (nb m k i = 0 /\ nb m k i / 3 = 0) \/ nbr m k i (nb m k i / 3) (nb m k i mod 3).
Proof.
  intros O A Lk Li. destruct (Z.eq_dec (nb m k i) 0) as [E|N]; [left; rewrite E; auto|right].
  destruct (nbr_of m k i O A Lk Li N) as (l & j & H). pose proof H as (_ & Lj & E & _).
  rewrite E, dec_div, dec_mod by exact Lj. exact H.
Qed.

(** ** Conformity of a modified mesh *)

Lemma chain_frame m m' : m_ntmax m' = m_ntmax m -> (forall x, live m' x -> live m x) ->
  (forall x, ~ live m x -> vtx m' x 2 = vtx m x 2) ->
  forall n fl, chain m n fl -> chain m' n fl.
Proof.
  intros E L V n fl C. induction C as [|k fl B N I C IH]; [constructor|].
  constructor; [rewrite E; exact B| |exact I|rewrite V by exact N; exact IH].
  intros H. apply N, L, H.
Qed.

Lemma tables_frame m m' : same_frame m m' -> (forall x, live m' x <-> live m x) ->
  (forall x, ~ live m x -> vtx m' x 2 = vtx m x 2) -> tables_ok m -> tables_ok m'.
Proof.
  intros (A1 & A2 & A3 & A4 & A5 & A6 & A7) L V (B1 & B2 & B3 & B4 & B5 & [fl B6] & B7).
  unfold tables_ok. rewrite A1, A2, A4, A5, A6, A7. repeat split; try assumption; try apply B3.
  - rewrite V; [exact B4|]. intros H. specialize (B5 _ H). lia.
  - intros x H. apply B5, L, H.
  - exists fl. apply (chain_frame m); try assumption. intros x H. apply L, H.
Qed.

Lemma vertices_at m k i : loc i ->
  alive m (vtx m k i) -> alive m (vtx m k (inxt2 i)) -> alive m (vtx m k (iprv2 i)) ->
  vtx m k i <> vtx m k (inxt2 i) -> vtx m k (inxt2 i) <> vtx m k (iprv2 i) -> vtx m k (iprv2 i) <> vtx m k i ->
  alive m (vtx m k 0) /\ alive m (vtx m k 1) /\ alive m (vtx m k 2) /\
  vtx m k 0 <> vtx m k 1 /\ vtx m k 1 <> vtx m k 2 /\ vtx m k 2 <> vtx m k 0.
Proof. intros [->|[->| ->]]; cbn; intros; repeat split; assumption || (apply H || apply H0 || apply H1). Qed.

Lemma alive_at m k i : vertices_ok m -> live m k -> loc i -> alive m (vtx m k i).
Proof. intros V L Li. destruct (V k L) as (A & B & C & _). destruct Li as [->|[->| ->]]; assumption. Qed.

Lemma at2_dec k i x y : (x = k /\ y = i /\ at2 k i x y = true) \/ (~ (x = k /\ y = i) /\ at2 k i x y = false).
Proof. unfold at2. destruct (Z.eqb_spec x k), (Z.eqb_spec y i); cbn; intuition. Qed.

(** ** Edge swap *)

Section Swap.
Variables (m : mesh) (k i l j : Z).
Hypothesis HT : tables_ok m.
Hypothesis HV : vertices_ok m.
Hypothesis HO : oriented m.
Hypothesis HA : adjacent m.
Hypothesis Lk : live m k.
Hypothesis Li : loc i.
Hypothesis HN : nbr m k i l j.

Let p := vtx m k i.
Let q := vtx m l j.
Let a := vtx m k (inxt2 i).
Let b := vtx m k (iprv2 i).

Lemma swap_run :
  MG_EDG (tag m k i) = false -> MG_SIN (tag m k i) = false ->
  exists m', swapar m k i = Ret (1, m') /\ same_frame m m' /\
  (forall x y, vtx m' x y = if at2 l (iprv2 j) x y then p else if at2 k (iprv2 i) x y then q else vtx m x y) /\
  (forall x y, tag m' x y = if at2 l (inxt2 j) x y then 0 else if at2 k (inxt2 i) x y then 0
      else if at2 l j x y then tag m k (inxt2 i) else if at2 k i x y then tag m l (inxt2 j) else tag m x y) /\
  (forall x y, edg m' x y = if at2 l (inxt2 j) x y then 0 else if at2 k (inxt2 i) x y then 0
      else if at2 l j x y then edg m k (inxt2 i) else if at2 k i x y then edg m l (inxt2 j) else edg m x y) /\
  (forall x y, loc y -> nb m' x y =
      if at2 l j x y then nb m k (inxt2 i)
      else if negb (nb m k (inxt2 i) / 3 =? 0) && at2 (nb m k (inxt2 i) / 3) (nb m k (inxt2 i) mod 3) x y then 3 * l + j
      else if at2 l (inxt2 j) x y then 3 * k + inxt2 i
      else if at2 k (inxt2 i) x y then 3 * l + inxt2 j
      else if negb (nb m l (inxt2 j) / 3 =? 0) && at2 (nb m l (inxt2 j) / 3) (nb m l (inxt2 j) mod 3) x y then 3 * k + i
      else if at2 k i x y then nb m l (inxt2 j)
      else nb m x y).
Proof.
  intros T1 T2. destruct HN as (Ll & Lj & E1 & E2 & _).
  pose proof (live_intab m k HT Lk) as Ik. pose proof (live_intab m l HT Ll) as Il.
  assert (Hne : l <> k) by exact (nbr_neq m k i l j HV Lk Li HN).
  pose proof (nb_read m k (inxt2 i) HO HA Lk (loc_nxt _ Li)) as R1.
  pose proof (nb_read m l (inxt2 j) HO HA Ll (loc_nxt _ Lj)) as R2.
  assert (P1 : negb (nb m k (inxt2 i) / 3 =? 0) = true -> intab m (nb m k (inxt2 i) / 3) /\ loc (nb m k (inxt2 i) mod 3)).
  { intros B. destruct R1 as [[_ Z0]|(L & Lc & _)]; [rewrite Z0 in B; discriminate|]. split; [exact (live_intab _ _ HT L)|exact Lc]. }
  assert (P2 : negb (nb m l (inxt2 j) / 3 =? 0) = true -> intab m (nb m l (inxt2 j) / 3) /\ loc (nb m l (inxt2 j) mod 3)).
  { intros B. destruct R2 as [[_ Z0]|(L & Lc & _)]; [rewrite Z0 in B; discriminate|]. split; [exact (live_intab _ _ HT L)|exact Lc]. }
  unfold swapar. rewrite get_t_ok by exact Ik. cbn [bind].
  change (ttag (aget (m_tri m) k) i) with (tag m k i). rewrite T1, T2. cbn [orb].
  rewrite get_adj_ok by assumption. cbn [bind]. rewrite E1, dec_div, dec_mod by exact Lj.
  assert (N0 : 3 * l + j <> 0) by (unfold live in Ll; pose proof (loc_le _ Lj); lia).
  rewrite (proj2 (Z.eqb_neq _ _) N0). cbn [negb c_assert bind].
  rewrite get_adj_ok by (assumption || auto using loc_nxt). cbn [bind].
  rewrite get_adj_ok by (assumption || auto using loc_nxt). cbn [bind].
  rewrite get_t_ok by exact Il. cbn [bind].
  rewrite set_v_ok by exact Ik. cbn [bind].
  rewrite get_t_ok by intabs. cbn [bind].
  rewrite set_v_ok by intabs. cbn [bind].
  rewrite get_t_ok by intabs. cbn [bind].
  rewrite set_tag_ok by intabs. cbn [bind].
  rewrite set_edg_ok by intabs. cbn [bind].
  rewrite get_t_ok by intabs. cbn [bind].
  do 3 (rewrite set_tag_ok by intabs; cbn [bind]; rewrite set_edg_ok by intabs; cbn [bind]).
  rewrite set_adj_ok by (assumption || intabs). cbn [bind].
  rewrite set_adj_if by (intros B; destruct (P2 B); split; [intabs|assumption]). cbn [bind].
  rewrite set_adj_ok by (auto using loc_nxt; intabs). cbn [bind].
  rewrite set_adj_ok by (auto using loc_nxt; intabs). cbn [bind].
  rewrite set_adj_if by (intros B; destruct (P1 B); split; [intabs|assumption]). cbn [bind].
  rewrite set_adj_ok by (assumption || intabs). cbn [bind].
  eexists. split; [reflexivity|]. split; [frames|].
  assert (L1 := loc_nxt _ Li). assert (L2 := loc_nxt _ Lj).
  repeat match goal with |- context [ttag (aget (m_tri ?mm) ?x) ?y] => change (ttag (aget (m_tri mm) x) y) with (tag mm x y) end.
  repeat match goal with |- context [tedg (aget (m_tri ?mm) ?x) ?y] => change (tedg (aget (m_tri mm) x) y) with (edg mm x y) end.
  repeat match goal with |- context [tv (aget (m_tri ?mm) ?x) ?y] => change (tv (aget (m_tri mm) x) y) with (vtx mm x y) end.
  assert (Hne' : k <> l) by congruence.
  pose proof (nxt_neq _ Li). pose proof (nxt_neq _ Lj). pose proof (prv_neq _ Li). pose proof (prv_neq _ Lj).
  repeat apply conj; intros x y.
  - views. rewrite (at2_i k (iprv2 i) k i) by congruence. reflexivity.
  - views. rewrite (at2_i k i k (inxt2 i)) by assumption. reflexivity.
  - views. rewrite (at2_i k i k (inxt2 i)) by assumption. reflexivity.
  - intros Ly. views. 
    replace (3 * (nb m k (inxt2 i) / 3) + nb m k (inxt2 i) mod 3) with (nb m k (inxt2 i)) by (apply Z.div_mod; lia).
    replace (3 * (nb m l (inxt2 j) / 3) + nb m l (inxt2 j) mod 3) with (nb m l (inxt2 j)) by (apply Z.div_mod; lia).
    reflexivity.
Qed.
End Swap.

(** The new edge does not exist. *)
Definition no_edge (m : mesh) (p q : Z) : Prop :=
  forall x y, live m x -> loc y -> ends m x y <> (p, q) /\ ends m x y <> (q, p).

Section Swap2.
Variables (m m' : mesh) (k i l j : Z).
Hypothesis HT : tables_ok m.
Hypothesis HV : vertices_ok m.
Hypothesis HO : oriented m.
Hypothesis HA : adjacent m.
Hypothesis Lk : live m k.
Hypothesis Li : loc i.
Hypothesis HN : nbr m k i l j.

Variables p q a b : Z.
Hypothesis Ep : vtx m k i = p.
Hypothesis Eq : vtx m l j = q.
Hypothesis Ea : vtx m k (inxt2 i) = a.
Hypothesis Eb : vtx m k (iprv2 i) = b.
Hypothesis Hpq : p <> q.
Hypothesis Hfr : no_edge m p q.
Hypothesis SF : same_frame m m'.
Hypothesis HVt : forall x y, vtx m' x y = if at2 l (iprv2 j) x y then p else if at2 k (iprv2 i) x y then q else vtx m x y.
Hypothesis HNb : forall x y, loc y -> nb m' x y =
      if at2 l j x y then nb m k (inxt2 i)
      else if negb (nb m k (inxt2 i) / 3 =? 0) && at2 (nb m k (inxt2 i) / 3) (nb m k (inxt2 i) mod 3) x y then 3 * l + j
      else if at2 l (inxt2 j) x y then 3 * k + inxt2 i
      else if at2 k (inxt2 i) x y then 3 * l + inxt2 j
      else if negb (nb m l (inxt2 j) / 3 =? 0) && at2 (nb m l (inxt2 j) / 3) (nb m l (inxt2 j) mod 3) x y then 3 * k + i
      else if at2 k i x y then nb m l (inxt2 j)
      else nb m x y.

Let Ll : live m l := proj1 HN.
Let Lj : loc j := proj1 (proj2 HN).
Let Hne : l <> k := nbr_neq m k i l j HV Lk Li HN.

Lemma sw_l1 : vtx m l (inxt2 j) = b. Proof. rewrite <- Eb. exact (proj1 (nbr_verts _ _ _ _ _ Li HN)). Qed.
Lemma sw_l2 : vtx m l (iprv2 j) = a. Proof. rewrite <- Ea. exact (proj2 (nbr_verts _ _ _ _ _ Li HN)). Qed.
Lemma sw_d : p <> a /\ a <> b /\ b <> p. Proof. rewrite <- Ep, <- Ea, <- Eb. exact (dist3 m k i HV Lk Li). Qed.
Lemma sw_d2 : q <> a /\ q <> b.
Proof.
  destruct (dist3 m l j HV Ll Lj) as (A & B & C). rewrite sw_l1 in A. rewrite sw_l2 in C. rewrite Eq in A, C. split; congruence.
Qed.

(** The vertices after the swap. *)
Lemma sw_k_i : vtx m' k i = p.
Proof. rewrite HVt, at2_k, at2_i by (congruence || (pose proof (prv_neq _ Li); congruence)). exact Ep. Qed.
Lemma sw_k_n : vtx m' k (inxt2 i) = a.
Proof. rewrite HVt, at2_k, at2_i by (congruence || exact (nxt_neq_prv _ Li)). exact Ea. Qed.
Lemma sw_k_p : vtx m' k (iprv2 i) = q.
Proof. rewrite HVt, at2_k, at2_same by congruence. reflexivity. Qed.
Lemma sw_l_j : vtx m' l j = q.
Proof. rewrite HVt, at2_i, at2_k by (congruence || (pose proof (prv_neq _ Lj); congruence)). exact Eq. Qed.
Lemma sw_l_n : vtx m' l (inxt2 j) = b.
Proof. rewrite HVt, at2_i, at2_k by (congruence || exact (nxt_neq_prv _ Lj)). exact sw_l1. Qed.
Lemma sw_l_p : vtx m' l (iprv2 j) = p.
Proof. rewrite HVt, at2_same. reflexivity. Qed.
Lemma sw_other x y : x <> k -> x <> l -> vtx m' x y = vtx m x y.
Proof. intros. rewrite HVt, !at2_k by assumption. reflexivity. Qed.

Lemma sw_apos x y : live m x -> loc y -> 0 < vtx m x y.
Proof. intros. destruct (alive_at m x y HV H H0) as [? _]. lia. Qed.

Lemma sw_live x : live m' x <-> live m x.
Proof.
  unfold live. rewrite (proj1 SF). change (tv (aget (m_tri m') x) 0) with (vtx m' x 0). change (tv (aget (m_tri m) x) 0) with (vtx m x 0).
  assert (L0 : loc 0) by (left; reflexivity).
  destruct (Z.eq_dec x k) as [->|Nk]; [|destruct (Z.eq_dec x l) as [->|Nl]].
  - assert (0 < vtx m' k 0).
    { rewrite HVt. destruct (at2 l (iprv2 j) k 0); [rewrite <- Ep; apply sw_apos; assumption|].
      destruct (at2 k (iprv2 i) k 0); [rewrite <- Eq; apply (sw_apos l j); assumption|apply sw_apos; assumption]. }
    pose proof (sw_apos k 0 Lk L0). tauto.
  - assert (0 < vtx m' l 0).
    { rewrite HVt. destruct (at2 l (iprv2 j) l 0); [rewrite <- Ep; apply (sw_apos k i); assumption|].
      destruct (at2 k (iprv2 i) l 0); [rewrite <- Eq; apply (sw_apos l j); assumption|apply sw_apos; assumption]. }
    pose proof (sw_apos l 0 Ll L0). tauto.
  - rewrite sw_other by assumption. reflexivity.
Qed.

Lemma sw_tables : tables_ok m'.
Proof.
  apply (tables_frame m m' SF sw_live); [|exact HT]. intros x Nx. apply sw_other; intros ->; contradiction.
Qed.

Lemma sw_alive x : alive m' x <-> alive m x.
Proof. unfold alive. destruct SF as (_ & _ & -> & _). reflexivity. Qed.

Lemma sw_vertices : vertices_ok m'.
Proof.
  intros x Lx. apply sw_live in Lx. pose proof sw_d as (d1 & d2 & d3). pose proof sw_d2 as (d4 & d5).
  destruct (Z.eq_dec x k) as [->|Nk]; [|destruct (Z.eq_dec x l) as [->|Nl]].
  - apply (vertices_at m' k i Li); rewrite ?sw_k_i, ?sw_k_n, ?sw_k_p, ?sw_alive; try congruence;
      rewrite <- ?Ep, <- ?Eq, <- ?Ea; apply alive_at; auto using loc_nxt, loc_prv.
  - apply (vertices_at m' l j Lj); rewrite ?sw_l_j, ?sw_l_n, ?sw_l_p, ?sw_alive; try congruence.
    + rewrite <- Eq. exact (alive_at m l j HV Ll Lj).
    + rewrite <- Eb. exact (alive_at m k _ HV Lk (loc_prv _ Li)).
    + rewrite <- Ep. exact (alive_at m k i HV Lk Li).
  - rewrite !sw_other, !sw_alive by assumption. exact (HV x Lx).
Qed.

Definition swD (x y : Z) : Prop :=
  (x = k /\ (y = i \/ y = inxt2 i)) \/ (x = l /\ (y = j \/ y = inxt2 j)) \/
  (live m x /\ loc y /\ (nb m x y = 3 * k + inxt2 i \/ nb m x y = 3 * l + inxt2 j)).

Lemma zdec (x y : Z) : x = y \/ x <> y.
Proof. destruct (Z.eq_dec x y); auto. Qed.
Lemma dec_or (P Q : Prop) : P \/ ~ P -> Q \/ ~ Q -> (P \/ Q) \/ ~ (P \/ Q).
Proof. tauto. Qed.
Lemma dec_and (P Q : Prop) : P \/ ~ P -> Q \/ ~ Q -> (P /\ Q) \/ ~ (P /\ Q).
Proof. tauto. Qed.

Lemma sw_dec x y : swD x y \/ ~ swD x y.
Proof. unfold swD. repeat first [apply live_dec|apply loc_dec|apply zdec|apply dec_or|apply dec_and]. Qed.

(** The neighbours through the two outer edges that move. *)
Lemma sw_n1 x y : live m x -> loc y -> nb m x y = 3 * k + inxt2 i ->
  nbr m k (inxt2 i) x y /\ x <> k /\ x <> l.
Proof.
  intros Lx Ly E.
  assert (N0 : nb m x y <> 0) by (pose proof (loc_le _ (loc_nxt _ Li)); unfold live in Lk; lia).
  destruct (nbr_of m x y HO HA Lx Ly N0) as (k' & i' & Lk' & Li' & E1 & E2 & E3).
  assert (k' = k /\ i' = inxt2 i) as [-> ->].
  { pose proof (loc_le _ (loc_nxt _ Li)). pose proof (loc_le _ Li'). lia. }
  assert (NN : nbr m k (inxt2 i) x y).
  { repeat split; try assumption; try apply Lx. rewrite E3, swp_swp. reflexivity. }
  split; [exact NN|]. split; [exact (nbr_neq _ _ _ _ _ HV Lk (loc_nxt _ Li) NN)|].
  intros ->. destruct NN as (_ & _ & _ & _ & NE). rewrite ends_nxt in NE by exact Li. unfold swp in NE; cbn [fst snd] in NE. rewrite Ep, Eb in NE.
  pose proof sw_d as (d1 & d2 & d3). pose proof sw_d2 as (d4 & d5).
  destruct (loc_cases j y Lj Ly) as [->|[->| ->]]; revert NE;
    rewrite ?(ends_eq m l j), ?ends_nxt, ?ends_prv by exact Lj; rewrite ?sw_l1, ?sw_l2, ?Eq; congruence.
Qed.

Lemma sw_n2 x y : live m x -> loc y -> nb m x y = 3 * l + inxt2 j ->
  nbr m l (inxt2 j) x y /\ x <> k /\ x <> l.
Proof.
  intros Lx Ly E.
  assert (N0 : nb m x y <> 0) by (pose proof (loc_le _ (loc_nxt _ Lj)); pose proof Ll as L9; unfold live in L9; lia).
  destruct (nbr_of m x y HO HA Lx Ly N0) as (k' & i' & Lk' & Li' & E1 & E2 & E3).
  assert (k' = l /\ i' = inxt2 j) as [-> ->].
  { pose proof (loc_le _ (loc_nxt _ Lj)). pose proof (loc_le _ Li'). lia. }
  assert (NN : nbr m l (inxt2 j) x y).
  { repeat split; try assumption; try apply Lx. rewrite E3, swp_swp. reflexivity. }
  split; [exact NN|]. split; [|exact (nbr_neq _ _ _ _ _ HV Ll (loc_nxt _ Lj) NN)].
  intros ->. destruct NN as (_ & _ & _ & _ & NE). rewrite ends_nxt in NE by exact Lj. unfold swp in NE; cbn [fst snd] in NE. rewrite sw_l2, Eq in NE.
  pose proof sw_d as (d1 & d2 & d3). pose proof sw_d2 as (d4 & d5).
  destruct (loc_cases i y Li Ly) as [->|[->| ->]]; revert NE;
    rewrite ?(ends_eq m k i), ?ends_nxt, ?ends_prv by exact Li; rewrite ?Ea, ?Eb, ?Ep; congruence.
Qed.

Lemma enc_inj x y z w : loc y -> loc w -> 3 * x + y = 3 * z + w -> x = z /\ y = w.
Proof. clear. unfold loc. lia. Qed.

(** The outer edges in [k] and [l] have a neighbour or not. *)
Lemma sw_o1 : (nb m k (inxt2 i) = 0 /\ nb m k (inxt2 i) / 3 = 0) \/
  exists x y, nbr m k (inxt2 i) x y /\ nb m k (inxt2 i) / 3 = x /\ nb m k (inxt2 i) mod 3 = y /\ x <> 0 /\ x <> k /\ x <> l.
Proof.
  destruct (nb_read m k (inxt2 i) HO HA Lk (loc_nxt _ Li)) as [H|H]; [left; exact H|right].
  exists (nb m k (inxt2 i) / 3), (nb m k (inxt2 i) mod 3). pose proof H as (L & Lc & E1 & E2 & _).
  destruct (sw_n1 _ _ L Lc E2) as (_ & A & B). repeat split; try assumption; try apply L; try apply H. unfold live in L; lia.
Qed.
Lemma sw_o2 : (nb m l (inxt2 j) = 0 /\ nb m l (inxt2 j) / 3 = 0) \/
  exists x y, nbr m l (inxt2 j) x y /\ nb m l (inxt2 j) / 3 = x /\ nb m l (inxt2 j) mod 3 = y /\ x <> 0 /\ x <> k /\ x <> l.
Proof.
  destruct (nb_read m l (inxt2 j) HO HA Ll (loc_nxt _ Lj)) as [H|H]; [left; exact H|right].
  exists (nb m l (inxt2 j) / 3), (nb m l (inxt2 j) mod 3). pose proof H as (L & Lc & E1 & E2 & _).
  destruct (sw_n2 _ _ L Lc E2) as (_ & A & B). repeat split; try assumption; try apply L; try apply H. unfold live in L; lia.
Qed.

Lemma sw_at1 x y : negb (nb m k (inxt2 i) / 3 =? 0) && at2 (nb m k (inxt2 i) / 3) (nb m k (inxt2 i) mod 3) x y = true <->
  nbr m k (inxt2 i) x y.
Proof.
  rewrite andb_true_iff, at2_spec. destruct sw_o1 as [[E0 E]|(x0 & y0 & N & E1 & E2 & H0 & _)].
  - rewrite E. split; [intros [H _]; discriminate|]. intros (L & Lc & H & _). exfalso.
    pose proof (loc_le _ Lc). unfold live in L. lia.
  - rewrite E1, E2, (proj2 (Z.eqb_neq _ _) H0). split; [intros (_ & -> & ->); exact N|].
    intros (L & Lc & H & _). destruct N as (L0 & Lc0 & H1 & _). rewrite H1 in H.
    destruct (enc_inj _ _ _ _ Lc0 Lc H) as [-> ->]. auto.
Qed.
Lemma sw_at2 x y : negb (nb m l (inxt2 j) / 3 =? 0) && at2 (nb m l (inxt2 j) / 3) (nb m l (inxt2 j) mod 3) x y = true <->
  nbr m l (inxt2 j) x y.
Proof.
  rewrite andb_true_iff, at2_spec. destruct sw_o2 as [[E0 E]|(x0 & y0 & N & E1 & E2 & H0 & _)].
  - rewrite E. split; [intros [H _]; discriminate|]. intros (L & Lc & H & _). exfalso.
    pose proof (loc_le _ Lc). unfold live in L. lia.
  - rewrite E1, E2, (proj2 (Z.eqb_neq _ _) H0). split; [intros (_ & -> & ->); exact N|].
    intros (L & Lc & H & _). destruct N as (L0 & Lc0 & H1 & _). rewrite H1 in H.
    destruct (enc_inj _ _ _ _ Lc0 Lc H) as [-> ->]. auto.
Qed.
Lemma sw_at1f x y : ~ nbr m k (inxt2 i) x y ->
  negb (nb m k (inxt2 i) / 3 =? 0) && at2 (nb m k (inxt2 i) / 3) (nb m k (inxt2 i) mod 3) x y = false.
Proof. intros H. apply not_true_iff_false. intros E. apply H, sw_at1, E. Qed.
Lemma sw_at2f x y : ~ nbr m l (inxt2 j) x y ->
  negb (nb m l (inxt2 j) / 3 =? 0) && at2 (nb m l (inxt2 j) / 3) (nb m l (inxt2 j) mod 3) x y = false.
Proof. intros H. apply not_true_iff_false. intros E. apply H, sw_at2, E. Qed.

Lemma nbr1_no x y : (x = k \/ x = l) -> ~ nbr m k (inxt2 i) x y.
Proof. intros H (L & Lc & E1 & E2 & _). destruct (sw_n1 _ _ L Lc E2) as (_ & A & B). tauto. Qed.
Lemma nbr2_no x y : (x = k \/ x = l) -> ~ nbr m l (inxt2 j) x y.
Proof. intros H (L & Lc & E1 & E2 & _). destruct (sw_n2 _ _ L Lc E2) as (_ & A & B). tauto. Qed.

Lemma sw_nb_lj : nb m' l j = nb m k (inxt2 i).
Proof. rewrite HNb, at2_same by exact Lj. reflexivity. Qed.
Lemma sw_nb_ljj : nb m' l (inxt2 j) = 3 * k + inxt2 i.
Proof.
  rewrite HNb by exact (loc_nxt _ Lj). rewrite at2_i by exact (nxt_neq _ Lj).
  rewrite sw_at1f by (apply nbr1_no; auto). rewrite at2_same. reflexivity.
Qed.
Lemma sw_nb_ki1 : nb m' k (inxt2 i) = 3 * l + inxt2 j.
Proof.
  rewrite HNb by exact (loc_nxt _ Li). rewrite at2_k by congruence.
  rewrite sw_at1f by (apply nbr1_no; auto). rewrite at2_k, at2_same by congruence. reflexivity.
Qed.
Lemma sw_nb_ki : nb m' k i = nb m l (inxt2 j).
Proof.
  rewrite HNb by exact Li. rewrite at2_k by congruence.
  rewrite sw_at1f by (apply nbr1_no; auto). rewrite at2_k by congruence.
  rewrite at2_i by (pose proof (nxt_neq _ Li); congruence). rewrite sw_at2f by (apply nbr2_no; auto). rewrite at2_same. reflexivity.
Qed.
Lemma sw_nb_n1 x y : nbr m k (inxt2 i) x y -> nb m' x y = 3 * l + j.
Proof.
  intros N. pose proof N as (L & Lc & _ & E2 & _). destruct (sw_n1 _ _ L Lc E2) as (_ & A & B).
  rewrite HNb by exact Lc. rewrite at2_k by exact B. rewrite (proj2 (sw_at1 x y) N). reflexivity.
Qed.
Lemma sw_nb_n2 x y : nbr m l (inxt2 j) x y -> nb m' x y = 3 * k + i.
Proof.
  intros N. pose proof N as (L & Lc & _ & E2 & _). destruct (sw_n2 _ _ L Lc E2) as (_ & A & B).
  rewrite HNb by exact Lc. rewrite at2_k by exact B.
  rewrite sw_at1f.
  - rewrite at2_k, at2_k by assumption. rewrite (proj2 (sw_at2 x y) N). reflexivity.
  - intros (_ & _ & _ & E3 & _). rewrite E2 in E3. destruct (enc_inj _ _ _ _ (loc_nxt _ Lj) (loc_nxt _ Li) E3). congruence.
Qed.
Lemma sw_nb_other x y : loc y -> ~ swD x y -> nb m' x y = nb m x y.
Proof.
  intros Ly ND. rewrite HNb by exact Ly.
  assert (A : forall u v w, (x = u /\ y = v -> swD x y) -> (if at2 u v x y then w else nb m x y) = nb m x y).
  { intros u v w H. destruct (at2_dec u v x y) as [(-> & -> & _)|[_ ->]]; [exfalso; auto|reflexivity]. }
  assert (B : forall u v, (x = u /\ y = v -> swD x y) -> at2 u v x y = false).
  { intros u v H. destruct (at2_dec u v x y) as [(-> & -> & _)|[_ ->]]; [exfalso; auto|reflexivity]. }
  rewrite (B l j), (B l (inxt2 j)), (B k (inxt2 i)), (B k i); try (unfold swD; tauto).
  rewrite sw_at1f, sw_at2f; [reflexivity| |].
  - intros (L & Lc & _ & E & _). apply ND. unfold swD. tauto.
  - intros (L & Lc & _ & E & _). apply ND. unfold swD. tauto.
Qed.

(** The edges after the swap. *)
Lemma sw_e_ki : ends m' k i = ends m l (inxt2 j).
Proof. rewrite ends_eq, ends_nxt by assumption. rewrite sw_k_n, sw_k_p, sw_l2, Eq. reflexivity. Qed.
Lemma sw_e_ki1 : ends m' k (inxt2 i) = (q, p).
Proof. rewrite ends_nxt by assumption. rewrite sw_k_p, sw_k_i. reflexivity. Qed.
Lemma sw_e_ki2 : ends m' k (iprv2 i) = ends m k (iprv2 i).
Proof. rewrite !ends_prv by assumption. rewrite sw_k_n, sw_k_i, Ep, Ea. reflexivity. Qed.
Lemma sw_e_lj : ends m' l j = ends m k (inxt2 i).
Proof. rewrite ends_eq, ends_nxt by assumption. rewrite sw_l_n, sw_l_p, Ep, Eb. reflexivity. Qed.
Lemma sw_e_lj1 : ends m' l (inxt2 j) = (p, q).
Proof. rewrite ends_nxt by assumption. rewrite sw_l_p, sw_l_j. reflexivity. Qed.
Lemma sw_e_lj2 : ends m' l (iprv2 j) = ends m l (iprv2 j).
Proof. rewrite !ends_prv by assumption. rewrite sw_l_n, sw_l_j, sw_l1, Eq. reflexivity. Qed.
Lemma sw_e_other x y : x <> k -> x <> l -> ends m' x y = ends m x y.
Proof. intros. unfold ends. rewrite !sw_other by assumption. reflexivity. Qed.

(** Members of [swD], with their new edge and the old one it comes from. *)
Lemma sw_members x y : live m x -> loc y -> swD x y ->
  (x = k /\ y = i) \/ (x = k /\ y = inxt2 i) \/ (x = l /\ y = j) \/ (x = l /\ y = inxt2 j) \/
  (nbr m k (inxt2 i) x y /\ x <> k /\ x <> l) \/ (nbr m l (inxt2 j) x y /\ x <> k /\ x <> l).
Proof.
  intros L Ly [(-> & [->| ->])|[(-> & [->| ->])|(_ & _ & [E|E])]]; auto 8.
  - pose proof (sw_n1 _ _ L Ly E). tauto.
  - pose proof (sw_n2 _ _ L Ly E). tauto.
Qed.

Lemma sw_D_ki : swD k i. Proof. unfold swD; auto. Qed.
Lemma sw_D_ki1 : swD k (inxt2 i). Proof. unfold swD; auto. Qed.
Lemma sw_D_lj : swD l j. Proof. unfold swD; auto. Qed.
Lemma sw_D_lj1 : swD l (inxt2 j). Proof. unfold swD; auto. Qed.

(** The old half-edge that carries the new edge of a member of [swD]. *)
Lemma sw_source x y : live m x -> loc y -> swD x y ->
  (exists x0 y0, live m x0 /\ loc y0 /\ swD x0 y0 /\ ends m x0 y0 = ends m' x y /\
     ((x = k /\ y = i /\ x0 = l /\ y0 = inxt2 j) \/ (x = l /\ y = j /\ x0 = k /\ y0 = inxt2 i) \/
      (x <> k /\ x <> l /\ x0 = x /\ y0 = y))) \/
  (x = k /\ y = inxt2 i) \/ (x = l /\ y = inxt2 j).
Proof.
  intros L Ly M. destruct (sw_members x y L Ly M) as [[-> ->]|[[-> ->]|[[-> ->]|[[-> ->]|[(N & A & B)|(N & A & B)]]]]].
  - left. exists l, (inxt2 j). repeat split; auto 10 using loc_nxt, sw_D_lj1; try apply Ll. rewrite sw_e_ki. reflexivity.
  - right. auto.
  - left. exists k, (inxt2 i). repeat split; auto 10 using loc_nxt, sw_D_ki1; try apply Lk. rewrite sw_e_lj. reflexivity.
  - right. auto.
  - left. exists x, y. repeat split; auto 10; try apply L. rewrite sw_e_other by assumption. reflexivity.
  - left. exists x, y. repeat split; auto 10; try apply L. rewrite sw_e_other by assumption. reflexivity.
Qed.

Lemma sw_all : oriented m' /\ adjacent m' /\
  ((forall x y, tag m' x y = if at2 l (inxt2 j) x y then 0 else if at2 k (inxt2 i) x y then 0
      else if at2 l j x y then tag m k (inxt2 i) else if at2 k i x y then tag m l (inxt2 j) else tag m x y) ->
   (forall x y, edg m' x y = if at2 l (inxt2 j) x y then 0 else if at2 k (inxt2 i) x y then 0
      else if at2 l j x y then edg m k (inxt2 i) else if at2 k i x y then edg m l (inxt2 j) else edg m x y) ->
   tags_agree m -> tags_agree m').
Proof.
  assert (Hout : forall x y, live m' x -> loc y -> ~ swD x y ->
     live m x /\ ends m' x y = ends m x y /\ nb m' x y = nb m x y).
  { intros x y L Ly ND. apply sw_live in L. split; [exact L|]. split; [|apply sw_nb_other; assumption].
    destruct (Z.eq_dec x k) as [->|Nk]; [|destruct (Z.eq_dec x l) as [->|Nl]; [|apply sw_e_other; assumption]].
    - destruct (loc_cases i y Li Ly) as [->|[->| ->]]; [exfalso; apply ND, sw_D_ki|exfalso; apply ND, sw_D_ki1|apply sw_e_ki2].
    - destruct (loc_cases j y Lj Ly) as [->|[->| ->]]; [exfalso; apply ND, sw_D_lj|exfalso; apply ND, sw_D_lj1|apply sw_e_lj2]. }
  assert (Hkeep : forall x y, live m x -> loc y -> ~ swD x y -> live m' x).
  { intros x y L _ _. apply sw_live, L. }
  assert (Hclos : forall x y z w, live m x -> loc y -> swD x y -> live m z -> loc w -> nb m x y = 3 * z + w -> swD z w).
  { intros x y z w L Ly M Lz Lw E.
    assert (S : nb m z w = 3 * x + y).
    { assert (N0 : nb m x y <> 0) by (pose proof (loc_le _ Lw); unfold live in Lz; lia).
      destruct (nbr_of m x y HO HA L Ly N0) as (z' & w' & Lz' & Lw' & E1 & E2 & _).
      rewrite E in E1. destruct (enc_inj _ _ _ _ Lw Lw' E1) as [-> ->]. exact E2. }
    destruct (sw_members x y L Ly M) as [[-> ->]|[[-> ->]|[[-> ->]|[[-> ->]|[(N & A & B)|(N & A & B)]]]]].
    - pose proof HN as (_ & _ & E1 & _). rewrite E1 in E. destruct (enc_inj _ _ _ _ Lj Lw E) as [<- <-]. apply sw_D_lj.
    - right. right. repeat split; try assumption; try apply Lz. left. exact S.
    - pose proof HN as (_ & _ & _ & E1 & _). rewrite E1 in E. destruct (enc_inj _ _ _ _ Li Lw E) as [<- <-]. apply sw_D_ki.
    - right. right. repeat split; try assumption; try apply Lz. right. exact S.
    - destruct N as (_ & _ & _ & E1 & _). rewrite E1 in E. destruct (enc_inj _ _ _ _ (loc_nxt _ Li) Lw E) as [<- <-]. apply sw_D_ki1.
    - destruct N as (_ & _ & _ & E1 & _). rewrite E1 in E. destruct (enc_inj _ _ _ _ (loc_nxt _ Lj) Lw E) as [<- <-]. apply sw_D_lj1. }
  assert (Hnew : forall x y, live m' x -> loc y -> swD x y ->
    (exists z w, live m z /\ loc w /\ swD z w /\ ends m z w = ends m' x y) \/
    (forall z w, live m z -> loc w -> ends m z w <> ends m' x y /\ ends m z w <> swp (ends m' x y))).
  { intros x y L Ly M. apply sw_live in L. destruct (sw_source x y L Ly M) as [(x0 & y0 & A & B & C & E & _)|[[-> ->]|[-> ->]]].
    - left. exists x0, y0. auto.
    - right. intros z w Lz Lw. rewrite sw_e_ki1. cbn. destruct (Hfr z w Lz Lw). auto.
    - right. intros z w Lz Lw. rewrite sw_e_lj1. cbn. destruct (Hfr z w Lz Lw). auto. }
  assert (Huni : forall x y z w, live m' x -> loc y -> swD x y -> live m' z -> loc w -> swD z w ->
    ends m' x y = ends m' z w -> x = z /\ y = w).
  { intros x y z w L Ly M Lz Lw M' E. apply sw_live in L, Lz.
    assert (F : forall u v, live m u -> loc v -> ends m u v <> (p, q) /\ ends m u v <> (q, p)) by exact Hfr.
    destruct (sw_source x y L Ly M) as [(x0 & y0 & A & B & C & E0 & E1)|R1];
    destruct (sw_source z w Lz Lw M') as [(z0 & w0 & A' & B' & C' & E0' & E1')|R2].
    - assert (EE : ends m x0 y0 = ends m z0 w0) by congruence. destruct (HO _ _ _ _ A A' B B' EE) as [-> ->].
      clear - Hne E1 E1'. intuition congruence.
    - exfalso. destruct (F x0 y0 A B). destruct R2 as [[-> ->]|[-> ->]]; rewrite ?sw_e_ki1, ?sw_e_lj1 in E; congruence.
    - exfalso. destruct (F z0 w0 A' B'). destruct R1 as [[-> ->]|[-> ->]]; rewrite ?sw_e_ki1, ?sw_e_lj1 in E; congruence.
    - destruct R1 as [[-> ->]|[-> ->]], R2 as [[-> ->]|[-> ->]]; auto; exfalso; rewrite sw_e_ki1, sw_e_lj1 in E; congruence. }
  assert (Hz : forall x0 y0 x y, live m x0 -> loc y0 -> nb m x0 y0 = 0 -> ends m' x y = ends m x0 y0 ->
     forall z w, live m' z -> loc w -> swD z w -> ends m' z w <> swp (ends m' x y)).
  { intros x0 y0 x y L0 Ly0 N0 E z w Lz Lw M E'. apply sw_live in Lz. rewrite E in E'.
    destruct (HA x0 y0 L0 Ly0) as [[_ H]|(z1 & w1 & L1 & Lw1 & N1 & _)].
    - destruct (sw_source z w Lz Lw M) as [(z0 & w0 & A & B & C & E0 & _)|[[-> ->]|[-> ->]]].
      + apply (H z0 w0 A B). congruence.
      + rewrite sw_e_ki1 in E'. destruct (Hfr x0 y0 L0 Ly0) as [F _]. apply F.
        rewrite <- (swp_swp (ends m x0 y0)), <- E'. reflexivity.
      + rewrite sw_e_lj1 in E'. destruct (Hfr x0 y0 L0 Ly0) as [_ F]. apply F.
        rewrite <- (swp_swp (ends m x0 y0)), <- E'. reflexivity.
    - pose proof (loc_le _ Lw1). unfold live in L1. lia. }
  assert (Hadj' : forall x y, live m' x -> loc y -> swD x y ->
    (nb m' x y = 0 /\
     ((exists z w, live m z /\ loc w /\ nb m z w = 0 /\ ends m z w = ends m' x y) \/
      (forall z w, live m z -> loc w -> ends m z w <> swp (ends m' x y))) /\
     (forall z w, live m' z -> loc w -> swD z w -> ends m' z w <> swp (ends m' x y))) \/
    (exists z w, live m' z /\ loc w /\ nb m' x y = 3 * z + w /\ ends m' z w = swp (ends m' x y))).
  { intros x y L Ly M. apply sw_live in L.
    destruct (sw_members x y L Ly M) as [[-> ->]|[[-> ->]|[[-> ->]|[[-> ->]|[(N & A & B)|(N & A & B)]]]]].
    - rewrite sw_nb_ki. destruct sw_o2 as [[E0 _]|(x0 & y0 & N & _ & _ & _ & A & B)].
      + left. split; [exact E0|]. split; [left; exists l, (inxt2 j); auto using loc_nxt, sw_e_ki|].
        apply (Hz l (inxt2 j)); auto using loc_nxt, sw_e_ki.
      + right. exists x0, y0. rewrite sw_live, sw_e_other, sw_e_ki by assumption.
        destruct N as (N1 & N2 & N3 & _ & N5). auto.
    - right. exists l, (inxt2 j). rewrite sw_live, sw_nb_ki1, sw_e_ki1, sw_e_lj1. auto using loc_nxt.
    - rewrite sw_nb_lj. destruct sw_o1 as [[E0 _]|(x0 & y0 & N & _ & _ & _ & A & B)].
      + left. split; [exact E0|]. split; [left; exists k, (inxt2 i); auto using loc_nxt, sw_e_lj|].
        apply (Hz k (inxt2 i)); auto using loc_nxt, sw_e_lj.
      + right. exists x0, y0. rewrite sw_live, sw_e_other, sw_e_lj by assumption.
        destruct N as (N1 & N2 & N3 & _ & N5). auto.
    - right. exists k, (inxt2 i). rewrite sw_live, sw_nb_ljj, sw_e_ki1, sw_e_lj1. auto using loc_nxt.
    - right. exists l, j. rewrite sw_live, (sw_nb_n1 x y N), sw_e_lj, sw_e_other by assumption.
      destruct N as (_ & _ & _ & _ & N5). rewrite N5, swp_swp. auto.
    - right. exists k, i. rewrite sw_live, (sw_nb_n2 x y N), sw_e_ki, sw_e_other by assumption.
      destruct N as (_ & _ & _ & _ & N5). rewrite N5, swp_swp. auto. }
  split; [|split].
  - exact (surgery_oriented m m' swD HO sw_dec Hout Hnew Huni).
  - exact (surgery_adjacent m m' swD HO HA sw_dec Hout Hkeep Hclos Hnew Huni Hadj').
  - intros HTg HEd HAg.
    pose proof (nxt_neq _ Li) as n1. pose proof (nxt_neq _ Lj) as n2.
    assert (Oth : forall x y, x <> k -> x <> l -> tag m' x y = tag m x y /\ edg m' x y = edg m x y).
    { intros x y A B. rewrite HTg, HEd, !at2_k by assumption. auto. }
    assert (T1 : tag m' k i = tag m l (inxt2 j) /\ edg m' k i = edg m l (inxt2 j)).
    { rewrite HTg, HEd, !(at2_k l) by congruence. rewrite (at2_i k (inxt2 i)), at2_same by congruence. auto. }
    assert (T2 : tag m' k (inxt2 i) = 0 /\ edg m' k (inxt2 i) = 0).
    { rewrite HTg, HEd, !(at2_k l) by congruence. rewrite at2_same. auto. }
    assert (T3 : tag m' l j = tag m k (inxt2 i) /\ edg m' l j = edg m k (inxt2 i)).
    { rewrite HTg, HEd, (at2_i l (inxt2 j)), at2_k, at2_same by congruence. auto. }
    assert (T4 : tag m' l (inxt2 j) = 0 /\ edg m' l (inxt2 j) = 0).
    { rewrite HTg, HEd, at2_same. auto. }
    assert (Ag : forall x y z w, live m x -> loc y -> nbr m x y z w -> tag m z w = tag m x y /\ edg m z w = edg m x y).
    { intros x y z w L Ly (Lz & Lw & E & _). assert (N0 : nb m x y <> 0) by (pose proof (loc_le _ Lw); unfold live in Lz; lia).
      pose proof (HAg x y L Ly N0) as G. rewrite E, dec_div, dec_mod in G by exact Lw. exact G. }
    apply (surgery_tags m m' swD HO HA sw_dec Hout Hkeep Hclos Hnew Huni Hadj' HAg).
    + intros x y L Ly ND.
      destruct (Z.eq_dec x k) as [->|Nk]; [|destruct (Z.eq_dec x l) as [->|Nl]; [|apply Oth; assumption]].
      * destruct (loc_cases i y Li Ly) as [->|[->| ->]]; [exfalso; apply ND, sw_D_ki|exfalso; apply ND, sw_D_ki1|].
        rewrite HTg, HEd, !(at2_k l), !at2_i by (congruence || (pose proof (prv_neq _ Li); pose proof (nxt_neq_prv _ Li); congruence)). auto.
      * destruct (loc_cases j y Lj Ly) as [->|[->| ->]]; [exfalso; apply ND, sw_D_lj|exfalso; apply ND, sw_D_lj1|].
        rewrite HTg, HEd, !(at2_k k), !at2_i by (congruence || (pose proof (prv_neq _ Lj); pose proof (nxt_neq_prv _ Lj); congruence)). auto.
    + intros x y z w L Ly M Lz Lw E. apply sw_live in L.
      destruct (sw_members x y L Ly M) as [[-> ->]|[[-> ->]|[[-> ->]|[[-> ->]|[(N & A & B)|(N & A & B)]]]]].
      * rewrite sw_nb_ki in E. destruct sw_o2 as [[E0 _]|(x0 & y0 & N & _ & _ & _ & A & B)].
        { exfalso. pose proof (loc_le _ Lw). unfold live in Lz. lia. }
        pose proof N as (_ & L0 & E1 & _). rewrite E1 in E. destruct (enc_inj _ _ _ _ L0 Lw E) as [<- <-].
        destruct (Ag _ _ _ _ Ll (loc_nxt _ Lj) N). destruct (Oth x0 y0 A B), T1. split; congruence.
      * rewrite sw_nb_ki1 in E. destruct (enc_inj _ _ _ _ (loc_nxt _ Lj) Lw E) as [<- <-]. destruct T2, T4. split; congruence.
      * rewrite sw_nb_lj in E. destruct sw_o1 as [[E0 _]|(x0 & y0 & N & _ & _ & _ & A & B)].
        { exfalso. pose proof (loc_le _ Lw). unfold live in Lz. lia. }
        pose proof N as (_ & L0 & E1 & _). rewrite E1 in E. destruct (enc_inj _ _ _ _ L0 Lw E) as [<- <-].
        destruct (Ag _ _ _ _ Lk (loc_nxt _ Li) N). destruct (Oth x0 y0 A B), T3. split; congruence.
      * rewrite sw_nb_ljj in E. destruct (enc_inj _ _ _ _ (loc_nxt _ Li) Lw E) as [<- <-]. destruct T2, T4. split; congruence.
      * rewrite (sw_nb_n1 x y N) in E. destruct (enc_inj _ _ _ _ Lj Lw E) as [<- <-].
        destruct (Ag _ _ _ _ Lk (loc_nxt _ Li) N). destruct (Oth x y A B), T3. split; congruence.
      * rewrite (sw_nb_n2 x y N) in E. destruct (enc_inj _ _ _ _ Li Lw E) as [<- <-].
        destruct (Ag _ _ _ _ Ll (loc_nxt _ Lj) N). destruct (Oth x y A B), T1. split; congruence.
Qed.
End Swap2.
