(** C57, C58, C59: the orientation of the triangles of a surface. *)
From Coq Require Import ZArith List Bool Lia.
From Coq Require Import Relations.Relation_Operators.
From Verif Require Import CBase SurfModel SurfProofs SurfLoop.
Import ListNotations.
Open Scope Z_scope.

(** ** Vocabulary *)

Definition nxt (i : Z) : Z := (i + 1) mod 3.
Definition prv (i : Z) : Z := (i + 2) mod 3.
Definition idx (i : Z) : Prop := 0 <= i <= 2.

Section Words.
Variable nt : Z.
Variable a : arr stri.

(** The triangle [k] is in use. *)
Definition used (k : Z) : Prop := 1 <= k <= nt /\ 0 < s_v (aget a k) 0.
Definition vtx (k i : Z) : Z := s_v (aget a k) i.
Definition tagof (k i : Z) : Z := s_tag (aget a k) i.

(** The edge [i] of [k], opposite to its vertex [i], is glued to the edge [ii] of [kk]. *)
Definition glued (k i kk ii : Z) : Prop := 1 <= kk /\ s_adj (aget a k) i = 3 * kk + ii.
Definition alone (k i : Z) : Prop := s_adj (aget a k) i = 0.

(** The edges through which the walk goes: neither non-manifold nor on a
    boundary between processors. *)
Definition bit (t n : Z) : bool := Z.testbit t n.
Definition inner (k i : Z) : Prop :=
  bit (tagof k i) 3 = false /\ bit (tagof k i) 4 = false /\
  (bit (tagof k i) 13 = true -> bit (tagof k i) 12 = true).

(** The two triangles run along the edge in opposite directions, or in the same one. *)
Definition against (k i kk ii : Z) : Prop :=
  vtx k (nxt i) = vtx kk (prv ii) /\ vtx k (prv i) = vtx kk (nxt ii).
Definition along (k i kk ii : Z) : Prop :=
  vtx k (nxt i) = vtx kk (nxt ii) /\ vtx k (prv i) = vtx kk (prv ii).

(** Triangles with three different vertices, glued two by two along edges with the
    same ends, and with the same kind of edge on both sides: what
    [MMG5_mmgHashTria] prepares, with the marks it resets. *)
Record surface : Prop := {
  u_len : alen a = nt + 1;
  u_pos : forall k i, used k -> idx i -> 0 < vtx k i;
  u_dif : forall k i j, used k -> idx i -> idx j -> i <> j -> vtx k i <> vtx k j;
  u_adj : forall k i, used k -> idx i -> alone k i \/
          exists kk ii, glued k i kk ii /\ used kk /\ idx ii /\ kk <> k /\ glued kk ii k i /\
            (inner k i <-> inner kk ii) /\ (against k i kk ii \/ along k i kk ii);
  u_mark : forall k, used k -> s_flag (aget a k) = 0 /\ 0 < s_base (aget a k)
}.

(** An orientation: which triangles to turn over so that neighbours agree. *)
Definition orientable : Prop := exists over : Z -> bool,
  forall k i kk ii, used k -> idx i -> idx ii -> glued k i kk ii -> inner k i ->
    (against k i kk ii <-> over k = over kk).

Definition oriented : Prop :=
  forall k i kk ii, used k -> idx i -> idx ii -> glued k i kk ii -> inner k i -> against k i kk ii.

(** Neighbours, and triangles that a path of neighbours joins. *)
Definition next_to (k kk : Z) : Prop :=
  used k /\ exists i ii, idx i /\ idx ii /\ glued k i kk ii /\ inner k i.
Definition joined : Z -> Z -> Prop := clos_refl_sym_trans Z next_to.

End Words.

(** The triangles of [a'] are those of [a] with their vertices numbered in another
    order, given by [p]: the edges follow with their references and tags, and what
    is glued is still glued. *)
Definition renumbered (nt : Z) (a a' : arr stri) (p : Z -> Z -> Z) : Prop :=
  forall k, used nt a k ->
    s_ref (aget a' k) = s_ref (aget a k) /\
    (forall i, idx i -> idx (p k i)) /\
    (forall i j, idx i -> idx j -> p k i = p k j -> i = j) /\
    forall i, idx i ->
      vtx a' k i = vtx a k (p k i) /\
      s_edg (aget a' k) i = s_edg (aget a k) (p k i) /\
      (forall n, 0 <= n -> n <> 0 -> n <> 3 -> n <> 7 -> bit (tagof a' k i) n = bit (tagof a k (p k i)) n) /\
      (alone a' k i <-> alone a k (p k i)) /\
      (forall kk ii, idx ii -> glued a' k i kk ii -> glued a k (p k i) kk (p kk ii)).

(** The other tags: MG_REF (0) says that the references differ across the edge,
    MG_NOM (3) and MG_OPNBDY (7) that nothing is glued. *)
Definition parallel_edge (a : arr stri) (k i : Z) : Prop :=
  bit (tagof a k i) 4 = true \/ (bit (tagof a k i) 13 = true /\ bit (tagof a k i) 12 = false).

Definition marked (nt : Z) (opn : bool) (a a' : arr stri) (p : Z -> Z -> Z) : Prop :=
  forall k i, used nt a k -> idx i ->
    (bit (tagof a' k i) 0 = true <->
       bit (tagof a k (p k i)) 0 = true \/
       (inner a k (p k i) /\ exists kk ii, idx ii /\ glued a' k i kk ii /\
          Z.abs (s_ref (aget a k)) <> Z.abs (s_ref (aget a kk)))) /\
    (bit (tagof a' k i) 3 = true <->
       bit (tagof a k (p k i)) 3 = true \/ (alone a k (p k i) /\ ~ parallel_edge a k (p k i))) /\
    (bit (tagof a' k i) 7 = true <->
       bit (tagof a k (p k i)) 7 = true \/
       (opn = true /\ alone a k (p k i) /\ ~ parallel_edge a k (p k i))).

(** ** Lemmas *)

Lemma idx_in3 i : idx i <-> in3 i.
Proof. unfold idx, in3. lia. Qed.
Lemma nx_nxt i : in3 i -> nx i = nxt i.
Proof. intros H. case3 H; reflexivity. Qed.
Lemma pv_prv i : in3 i -> pv i = prv i.
Proof. intros H. case3 H; reflexivity. Qed.

Lemma tst_bit t n : 0 <= n -> tst t (2 ^ n) = bit t n.
Proof.
  intros Hn. unfold tst, bit. destruct (Z.testbit t n) eqn:E.
  - apply negb_true_iff, Z.eqb_neq. intros C.
    assert (X : Z.testbit (Z.land t (2 ^ n)) n = true).
    { rewrite Z.land_spec, E, Z.pow2_bits_true by exact Hn. reflexivity. }
    rewrite C, Z.testbit_0_l in X. discriminate.
  - apply negb_false_iff, Z.eqb_eq. apply Z.bits_inj'. intros m Hm.
    rewrite Z.land_spec, Z.pow2_bits_eqb, Z.testbit_0_l by exact Hn.
    destruct (Z.eqb_spec n m) as [<- | N]; [rewrite E; reflexivity | apply andb_false_r].
Qed.

Lemma tst_3 t : tst t T_NOM = bit t 3. Proof. exact (tst_bit t 3 ltac:(lia)). Qed.
Lemma tst_4 t : tst t T_BDY = bit t 4. Proof. exact (tst_bit t 4 ltac:(lia)). Qed.
Lemma tst_0 t : tst t T_REF = bit t 0. Proof. exact (tst_bit t 0 ltac:(lia)). Qed.
Lemma tst_7 t : tst t T_OPN = bit t 7. Proof. exact (tst_bit t 7 ltac:(lia)). Qed.
Lemma tst_12 t : tst t T_PARBDYBDY = bit t 12. Proof. exact (tst_bit t 12 ltac:(lia)). Qed.
Lemma tst_13 t : tst t T_PARBDY = bit t 13. Proof. exact (tst_bit t 13 ltac:(lia)). Qed.

Lemma skipped_parallel a k i : skipped (tagof a k i) = true <-> parallel_edge a k i.
Proof.
  unfold skipped, parallel_edge. rewrite tst_4, tst_12, tst_13.
  destruct (bit _ 4), (bit _ 12), (bit _ 13); cbn; intuition congruence.
Qed.

Lemma walk_inner a k i : walk0 a k i = true <-> inner a k i.
Proof.
  unfold walk0, inner, skipped, tag0. fold (tagof a k i). rewrite tst_3, tst_4, tst_12, tst_13.
  destruct (bit _ 3), (bit _ 4), (bit _ 12), (bit _ 13); cbn; intuition congruence.
Qed.

Lemma used_ok nt a k : used nt a k <-> ok nt a k.
Proof. unfold used, ok, s_eok. rewrite Z.ltb_lt. tauto. Qed.

Lemma surface_valid nt a : surface nt a -> valid0 nt a.
Proof.
  intros S. constructor.
  - apply S.
  - intros k i Hk Hi. apply used_ok in Hk. apply idx_in3 in Hi. apply (u_pos _ _ S); assumption.
  - intros k i Hk Hi. apply used_ok in Hk.
    apply (u_dif _ _ S); [exact Hk | apply idx_in3; auto using in3_nx | apply idx_in3; auto using in3_pv |].
    case3 Hi; cbv; discriminate.
  - intros k i Hk Hi E. apply used_ok in Hk. pose proof Hi as Hi'. apply idx_in3 in Hi'.
    destruct (u_adj _ _ S k i Hk Hi') as [C | (kk & ii & G & U & Hii & N & G' & In & AL)]; [contradiction |].
    pose proof Hii as Hii'. apply idx_in3 in Hii'.
    unfold adj0. destruct G as [G0 G]. rewrite G, div3, mod3 by exact Hii'. cbn zeta.
    split; [apply used_ok; exact U |]. split; [exact N |]. split; [apply G' |]. split.
    + apply eq_true_iff_eq. rewrite !walk_inner. symmetry. exact In.
    + unfold v0. rewrite !nx_nxt, !pv_prv by assumption. exact AL.
  - intros k Hk. apply used_ok in Hk. apply (u_mark _ _ S k Hk).
  - intros k Hk. apply used_ok in Hk. apply (u_mark _ _ S k Hk).
Qed.

Lemma orientation nt a over : surface nt a ->
  (forall k i kk ii, used nt a k -> idx i -> idx ii -> glued a k i kk ii -> inner a k i ->
    (against a k i kk ii <-> over k = over kk)) -> oriented_by nt a over.
Proof.
  intros S H k i Hk Hi E Wk. apply used_ok in Hk. pose proof Hi as Hi'. apply idx_in3 in Hi'.
  destruct (u_adj _ _ S k i Hk Hi') as [C | (kk & ii & G & U & Hii & N & G' & In & AL)]; [contradiction |].
  pose proof Hii as Hii'. apply idx_in3 in Hii'.
  apply walk_inner in Wk.
  pose proof (H k i kk ii Hk Hi' Hii G Wk) as OV.
  unfold adj0. destruct G as [G0 G]. rewrite G, div3, mod3 by exact Hii'.
  rewrite <- OV.
  unfold v0, against, along, vtx in *. rewrite !nx_nxt, !pv_prv by assumption.
  assert (D : s_v (aget a k) (nxt i) <> s_v (aget a k) (prv i)).
  { rewrite <- nx_nxt, <- pv_prv by assumption. apply (v_dif _ _ (surface_valid _ _ S)); [apply used_ok; exact Hk | exact Hi]. }
  destruct AL as [[A1 A2] | [A1 A2]]; split; intros X; try split; try tauto; exfalso; try destruct X; congruence.
Qed.

Lemma bit_lor t x n : bit (Z.lor t x) n = bit t n || bit x n.
Proof. apply Z.lor_spec. Qed.

Lemma bit_ref n : 0 <= n -> bit T_REF n = (n =? 0).
Proof. intros H. unfold bit. change T_REF with (2 ^ 0). rewrite Z.pow2_bits_eqb by lia. apply Z.eqb_sym. Qed.

Lemma bit_nom opn n : 0 <= n -> bit (nom_bits opn) n = (n =? 3) || (opn && (n =? 7)).
Proof.
  intros H. unfold nom_bits, bit. destruct opn.
  - change (T_OPN + T_NOM) with (Z.lor (2 ^ 3) (2 ^ 7)). rewrite Z.lor_spec, !Z.pow2_bits_eqb by lia.
    rewrite (Z.eqb_sym 3), (Z.eqb_sym 7). reflexivity.
  - change (0 + T_NOM) with (2 ^ 3). rewrite Z.pow2_bits_eqb by lia. rewrite Z.eqb_sym. cbn. rewrite orb_false_r. reflexivity.
Qed.

(** ** C57, C58 *)

Lemma after_setadj nt opn a : 1 <= nt -> surface nt a -> orientable nt a ->
  exists ncc a' p, setadj nt opn a = Ret (Some (ncc, a')) /\
    renumbered nt a a' p /\ marked nt opn a a' p /\
    (forall k i kk ii, used nt a k -> idx i -> idx ii -> glued a' k i kk ii -> inner a k (p k i) ->
       against a' k i kk ii) /\
    (forall k i kk ii, used nt a k -> idx i -> idx ii -> glued a' k i kk ii -> used nt a kk /\ glued a' kk ii k i) /\
    (forall k, used nt a' k <-> used nt a k) /\
    (forall k kk, used nt a k -> used nt a kk ->
       (s_flag (aget a' k) = s_flag (aget a' kk) <-> joined nt a k kk)) /\
    (forall k, used nt a k -> 1 <= s_flag (aget a' k) <= ncc) /\
    (forall c, (if 0 <? vtx a 1 0 then 1 else 2) <= c <= ncc -> exists k, used nt a k /\ s_flag (aget a' k) = c).
Proof.
  intros NT S (over & OV).
  pose proof (surface_valid nt a S) as V. pose proof (orientation nt a over S OV) as O.
  destruct (setadj_ok nt opn a V over O NT) as (ncc & a' & E & p & f & HW & R & SC & SEEN & ALL).
  exists ncc, a', p. split; [exact E |].
  assert (PI : forall k i, ok nt a k -> in3 i -> in3 (p k i)).
  { intros k i Hk Hi. apply (w_turn _ _ _ _ _ _ HW k Hk i Hi). }
  assert (GL : forall k i kk ii, ok nt a k -> in3 i -> in3 ii -> glued a' k i kk ii ->
             ok nt a kk /\ glued a k (p k i) kk (p kk ii) /\ adj0 a k (p k i) <> 0 /\ adj0 a k (p k i) / 3 = kk).
  { intros k i kk ii Hk Hi Hii [G0 G].
    destruct (w_adj _ _ _ _ _ _ HW k i Hk Hi) as [[C C'] | (m & x & Hm & Hx & A & B)].
    - exfalso. rewrite G in C. unfold in3 in Hii. lia.
    - rewrite G in A. destruct (eq3 _ _ _ _ Hii Hx A) as (-> & ->).
      pose proof (PI m x Hm Hx) as Px.
      split; [exact Hm |]. split; [split; [exact G0 | exact B] |].
      split; [rewrite B; unfold in3 in Px; lia |]. rewrite B. apply div3. exact Px. }
  assert (AL : forall k i, ok nt a k -> in3 i -> (s_adj (aget a' k) i = 0 <-> adj0 a k (p k i) = 0)).
  { intros k i Hk Hi. destruct (w_adj _ _ _ _ _ _ HW k i Hk Hi) as [[C C'] | (m & x & Hm & Hx & A & B)]; [tauto |].
    pose proof (PI m x Hm Hx) as Px. rewrite A, B. destruct Hm as [? _]. unfold in3 in *. lia. }
  assert (NG : forall k i, ok nt a k -> in3 i -> adj0 a k (p k i) <> 0 ->
             glued a' k i (adj0 a k (p k i) / 3) (s_adj (aget a' k) i mod 3)).
  { intros k i Hk Hi N. destruct (w_adj _ _ _ _ _ _ HW k i Hk Hi) as [[C C'] | (m & x & Hm & Hx & A & B)]; [contradiction |].
    rewrite B, A, mod3, div3 by auto. split; [apply Hm | exact A]. }
  repeat apply conj.
  - (* renumbered *)
    intros k Hk. apply used_ok in Hk. repeat apply conj.
    + apply (w_ref _ _ _ _ _ _ HW k Hk).
    + intros i Hi. apply idx_in3. apply idx_in3 in Hi. auto.
    + intros i j Hi Hj. apply idx_in3 in Hi. apply idx_in3 in Hj.
      apply (turned_inj _ _ _ _ (w_turn _ _ _ _ _ _ HW k Hk) Hi Hj).
    + intros i Hi. apply idx_in3 in Hi. repeat apply conj.
      * apply (w_v _ _ _ _ _ _ HW k i Hk Hi).
      * apply (w_edg _ _ _ _ _ _ HW k i Hk Hi).
      * intros n Hn N0 N3 N7. destruct (w_tag _ _ _ _ _ _ HW k i Hk Hi) as (x & T & C).
        unfold tagof at 1. rewrite T, bit_lor. unfold tag0. fold (tagof a k (p k i)).
        assert (X : bit x n = false); [| rewrite X; apply orb_false_r].
        destruct C as [-> | [(_ & _ & ->) | (_ & _ & _ & ->)]].
        -- apply Z.testbit_0_l.
        -- rewrite bit_nom by exact Hn. destruct (Z.eqb_spec n 3), (Z.eqb_spec n 7); try contradiction. apply andb_false_r.
        -- rewrite bit_ref by exact Hn. apply Z.eqb_neq. exact N0.
      * apply AL; assumption.
      * apply AL; assumption.
      * intros kk ii Hii G. apply idx_in3 in Hii. apply (GL k i kk ii Hk Hi Hii G).
  - (* marked *)
    intros k i Hk Hi. apply used_ok in Hk. apply idx_in3 in Hi.
    destruct (w_tag _ _ _ _ _ _ HW k i Hk Hi) as (x & T & C).
    destruct (SEEN k i Hk Hi) as (S1 & S2).
    rewrite tst_0 in S2. fold (tagof a' k i) in S1, S2.
    assert (TB : forall n, bit (tagof a' k i) n = bit (tagof a k (p k i)) n || bit x n).
    { intros n. unfold tagof at 1. rewrite T, bit_lor. reflexivity. }
    repeat apply conj.
    + rewrite TB, orb_true_iff. intros [X | X]; [left; exact X | right].
      destruct C as [-> | [(_ & _ & ->) | (C1 & C2 & C3 & ->)]].
      * discriminate.
      * rewrite bit_nom in X by lia. rewrite andb_false_r in X. discriminate.
      * split; [apply walk_inner; exact C2 |].
        exists (adj0 a k (p k i) / 3), (s_adj (aget a' k) i mod 3).
        split; [apply idx_in3, in3_mod |]. split; [apply NG; assumption | exact C3].
    + intros [X | (X & kk & ii & Hii & G & D)].
      * rewrite TB, X. reflexivity.
      * apply idx_in3 in Hii. destruct (GL k i kk ii Hk Hi Hii G) as (_ & _ & NZ & <-).
        apply walk_inner in X. apply (S2 NZ X). exact D.
    + rewrite TB, orb_true_iff. intros [X | X]; [left; exact X | right].
      destruct C as [-> | [(C1 & C2 & ->) | (C1 & C2 & C3 & ->)]].
      * discriminate.
      * split; [exact C1 |]. rewrite <- skipped_parallel. unfold tag0 in C2. unfold tagof. congruence.
      * discriminate.
    + intros [X | (X & D)].
      * rewrite TB, X. reflexivity.
      * rewrite <- skipped_parallel, not_true_iff_false in D. rewrite <- tst_3. apply S1; auto. destruct opn; discriminate.
    + rewrite TB, orb_true_iff. intros [X | X]; [left; exact X | right].
      destruct C as [-> | [(C1 & C2 & ->) | (C1 & C2 & C3 & ->)]].
      * discriminate.
      * rewrite bit_nom in X by lia. cbn in X. rewrite andb_true_r in X. split; [exact X |].
        split; [exact C1 |]. rewrite <- skipped_parallel. unfold tag0 in C2. unfold tagof. congruence.
      * discriminate.
    + intros [X | (OP & X & D)].
      * rewrite TB, X. reflexivity.
      * rewrite <- skipped_parallel, not_true_iff_false in D.
        rewrite <- tst_7. apply S1; auto. rewrite OP. discriminate.
  - (* oriented *)
    intros k i kk ii Hk Hi Hii G In. apply used_ok in Hk. apply idx_in3 in Hi. apply idx_in3 in Hii.
    destruct (GL k i kk ii Hk Hi Hii G) as (Hkk & _ & NZ & D). apply walk_inner in In.
    destruct G as [G0 G].
    assert (NZ' : s_adj (aget a' k) i <> 0) by (rewrite G; unfold in3 in Hii; lia).
    destruct (SEEN k i Hk Hi) as (_ & S2). destruct (S2 NZ In) as (FL & _). rewrite D in FL.
    destruct (SC kk k Hkk Hk FL) as (SD & _).
    pose proof (proj2 (consistent _ _ _ V over O _ _ _ _ _ HW Hk Hi NZ' In)) as X.
    rewrite G, div3, mod3 in X by exact Hii. specialize (X (eq_sym SD)).
    pose proof (ends _ _ _ V _ _ _ _ _ HW Hk Hi NZ') as EN. cbn zeta in EN.
    rewrite G, div3, mod3 in EN by exact Hii.
    unfold against, vtx. rewrite <- !nx_nxt, <- !pv_prv by assumption.
    split; [exact X |]. destruct EN as [(_ & Y & _) | (_ & _ & Y)]; congruence.
  - (* glued both ways *)
    intros k i kk ii Hk Hi Hii [G0 G]. apply used_ok in Hk. apply idx_in3 in Hi. apply idx_in3 in Hii.
    assert (NZ' : s_adj (aget a' k) i <> 0) by (rewrite G; unfold in3 in Hii; lia).
    destruct (behind _ _ _ V _ _ _ _ _ HW Hk Hi NZ') as (B1 & _ & _ & _ & _ & B2). cbn zeta in B1, B2.
    rewrite G, div3 in B1 by exact Hii. rewrite G, div3, mod3 in B2 by exact Hii.
    split; [apply used_ok; exact B1 |]. split; [apply Hk | exact B2].
  - (* used *)
    intros k. split; intros (R1 & R2); split; auto.
    + assert (X : s_eok (aget a' k) = true) by (apply Z.ltb_lt; exact R2).
      rewrite (eok_same _ _ _ V _ _ _ _ HW R1) in X. apply Z.ltb_lt. exact X.
    + assert (X : s_eok (aget a k) = true) by (apply Z.ltb_lt; exact R2).
      rewrite <- (eok_same _ _ _ V _ _ _ _ HW R1) in X. apply Z.ltb_lt. exact X.
  - (* components *)
    assert (JN : forall k kk, conn nt a k kk <-> joined nt a k kk).
    { assert (LN : forall k kk, link0 nt a k kk <-> next_to nt a k kk).
      { intros k kk. split.
        - intros (Hk & i & Hi & NZ & Wk & <-).
          split; [apply used_ok; exact Hk |]. exists i, (adj0 a k i mod 3).
          split; [apply idx_in3; exact Hi |]. split; [apply idx_in3, in3_mod |].
          split; [| apply walk_inner; exact Wk]. split; [apply (v_adj _ _ V k i Hk Hi NZ) | apply div_mod3].
        - intros (Hk & i & ii & Hi & Hii & [G0 G] & In). apply idx_in3 in Hi. apply idx_in3 in Hii.
          split; [apply used_ok; exact Hk |]. exists i. split; [exact Hi |].
          split; [unfold adj0; rewrite G; unfold in3 in Hii; lia |]. split; [apply walk_inner; exact In |].
          unfold adj0. rewrite G. apply div3. exact Hii. }
      intros k kk. split; intros H; induction H.
      - apply rst_step, LN. assumption.
      - apply rst_refl.
      - apply rst_sym. assumption.
      - eapply rst_trans; eassumption.
      - apply rst_step, LN. assumption.
      - apply rst_refl.
      - apply rst_sym. assumption.
      - eapply rst_trans; eassumption. }
    assert (FC : forall k kk, conn nt a k kk -> fl a' k = fl a' kk).
    { intros k kk H. induction H as [k kk (Hk & i & Hi & NZ & Wk & <-) | | |]; try congruence.
      destruct (turned_onto _ _ _ (w_turn _ _ _ _ _ _ HW k Hk) Hi) as (i' & Hi' & <-).
      destruct (SEEN k i' Hk Hi') as (_ & S2). destruct (S2 NZ Wk) as (FL & _). congruence. }
    intros k kk Hk Hkk. apply used_ok in Hk. apply used_ok in Hkk. rewrite <- JN. split.
    + intros H. apply (SC k kk Hk Hkk H).
    + apply FC.
  - intros k Hk. apply used_ok in Hk. apply (R k Hk).
  - intros c Hc. destruct (ALL c Hc) as (k & Hk & F). exists k. split; [apply used_ok; exact Hk | exact F].
Qed.

Lemma glued_alone a k i kk ii : idx ii -> glued a k i kk ii -> ~ alone a k i.
Proof. unfold glued, alone, idx. lia. Qed.

(** C57.  The surface can be oriented: [MMG5_setadj] succeeds without leaving its
    arrays, and orients it.  Two triangles glued along an edge that is not
    non-manifold run along it in opposite directions; the triangles are the same,
    with their references; the gluings are the same; no tag is lost, and the tags
    MG_REF, MG_NOM and MG_OPNBDY appear exactly where they must. *)
Theorem orients nt opn a : 1 <= nt -> surface nt a -> orientable nt a ->
  exists ncc a' p, setadj nt opn a = Ret (Some (ncc, a')) /\
    renumbered nt a a' p /\ marked nt opn a a' p /\ oriented nt a' /\
    (forall k, used nt a' k <-> used nt a k) /\
    (forall k i kk ii, used nt a' k -> idx i -> idx ii -> glued a' k i kk ii -> used nt a' kk /\ glued a' kk ii k i).
Proof.
  intros NT S OR. destruct (after_setadj nt opn a NT S OR) as (ncc & a' & p & E & RN & MK & AG & GG & US & _).
  exists ncc, a', p. split; [exact E |]. split; [exact RN |]. split; [exact MK |]. split; [| split].
  - intros k i kk ii Hk Hi Hii G (I3 & I4 & I13). apply US in Hk.
    apply AG; auto. destruct (RN k Hk) as (_ & _ & _ & TR). destruct (TR i Hi) as (_ & _ & TG & AL & _).
    destruct (MK k i Hk Hi) as (_ & M3 & _). split; [| split].
    + destruct (bit (tagof a k (p k i)) 3) eqn:B; [| reflexivity].
      rewrite <- I3. symmetry. apply M3. left. reflexivity.
    + rewrite <- TG by lia. exact I4.
    + rewrite <- !TG by lia. exact I13.
  - exact US.
  - intros k i kk ii Hk Hi Hii G. apply US in Hk. destruct (GG k i kk ii Hk Hi Hii G) as (A & B).
    split; [apply US; exact A | exact B].
Qed.

(** C58.  The flags number the connected components: two triangles have the same
    one exactly when a path joins them, and when the first triangle is in use all
    the numbers up to the number of components that is printed are taken. *)
Theorem components nt opn a : 1 <= nt -> surface nt a -> orientable nt a ->
  exists ncc a', setadj nt opn a = Ret (Some (ncc, a')) /\
    (forall k kk, used nt a k -> used nt a kk ->
       (s_flag (aget a' k) = s_flag (aget a' kk) <-> joined nt a k kk)) /\
    (forall k, used nt a k -> 1 <= s_flag (aget a' k) <= ncc) /\
    (used nt a 1 -> forall c, 1 <= c <= ncc -> exists k, used nt a k /\ s_flag (aget a' k) = c).
Proof.
  intros NT S OR. destruct (after_setadj nt opn a NT S OR) as (ncc & a' & p & E & _ & _ & _ & _ & _ & C1 & C2 & C3).
  exists ncc, a'. split; [exact E |]. split; [exact C1 |]. split; [exact C2 |].
  intros (_ & U) c Hc. apply C3. apply Z.ltb_lt in U. unfold vtx. rewrite U. exact Hc.
Qed.

(** C59.  The failure "Moebius strip?" is never reported for nothing. *)
Theorem failure_is_moebius nt opn a : 1 <= nt -> surface nt a -> setadj nt opn a = Ret None -> ~ orientable nt a.
Proof.
  intros NT S E OR. destruct (orients nt opn a NT S OR) as (ncc & a' & p & E' & _). congruence.
Qed.

(** ** Cases *)

Definition range (n : Z) : list Z := map Z.of_nat (seq 1 (Z.to_nat n)).
Lemma in_range n k : 1 <= k <= n -> In k (range n).
Proof. intros H. apply in_map_iff. exists (Z.to_nat k). split; [lia |]. apply in_seq. lia. Qed.

Definition innerb (a : arr stri) (k i : Z) : bool :=
  negb (bit (tagof a k i) 3) && negb (bit (tagof a k i) 4) &&
  (negb (bit (tagof a k i) 13) || bit (tagof a k i) 12).
Lemma innerb_ok a k i : innerb a k i = true <-> inner a k i.
Proof. unfold innerb, inner. destruct (bit _ 3), (bit _ 4), (bit _ 13), (bit _ 12); cbn; intuition congruence. Qed.

Definition againstb a k i kk ii : bool :=
  (vtx a k (nxt i) =? vtx a kk (prv ii)) && (vtx a k (prv i) =? vtx a kk (nxt ii)).
Definition alongb a k i kk ii : bool :=
  (vtx a k (nxt i) =? vtx a kk (nxt ii)) && (vtx a k (prv i) =? vtx a kk (prv ii)).
Definition glueb (nt : Z) (a : arr stri) (k i : Z) : bool :=
  let x := s_adj (aget a k) i in let kk := x / 3 in let ii := x mod 3 in
  (x =? 0) ||
  ((1 <=? kk) && (kk <=? nt) && (0 <? vtx a kk 0) && negb (kk =? k) && (s_adj (aget a kk) ii =? 3 * k + i)
   && Bool.eqb (innerb a k i) (innerb a kk ii) && (againstb a k i kk ii || alongb a k i kk ii)).
Definition surfaceb (nt : Z) (a : arr stri) : bool :=
  (alen a =? nt + 1) &&
  forallb (fun k => negb (0 <? vtx a k 0) ||
    ((0 <? vtx a k 1) && (0 <? vtx a k 2) && negb (vtx a k 0 =? vtx a k 1) && negb (vtx a k 1 =? vtx a k 2)
     && negb (vtx a k 0 =? vtx a k 2) && (s_flag (aget a k) =? 0) && (0 <? s_base (aget a k))
     && glueb nt a k 0 && glueb nt a k 1 && glueb nt a k 2)) (range nt).

Lemma surfaceb_ok nt a : surfaceb nt a = true -> surface nt a.
Proof.
  unfold surfaceb. rewrite andb_true_iff, forallb_forall. intros [L H].
  assert (F : forall k, used nt a k ->
     0 < vtx a k 0 /\ 0 < vtx a k 1 /\ 0 < vtx a k 2 /\ vtx a k 0 <> vtx a k 1 /\ vtx a k 1 <> vtx a k 2 /\
     vtx a k 0 <> vtx a k 2 /\ s_flag (aget a k) = 0 /\ 0 < s_base (aget a k) /\
     glueb nt a k 0 = true /\ glueb nt a k 1 = true /\ glueb nt a k 2 = true).
  { intros k (R & U). specialize (H k (in_range nt k R)).
    fold (vtx a k 0) in U. assert (U' : 0 <? vtx a k 0 = true) by (apply Z.ltb_lt; exact U).
    rewrite U' in H. cbn [negb orb] in H.
    rewrite !andb_true_iff, !negb_true_iff, !Z.eqb_neq, !Z.ltb_lt, Z.eqb_eq in H. tauto. }
  constructor.
  - apply Z.eqb_eq. exact L.
  - intros k i Hk Hi. destruct (F k Hk) as (A & B & C & _). unfold idx in Hi.
    assert (i = 0 \/ i = 1 \/ i = 2) as [-> | [-> | ->]] by lia; assumption.
  - intros k i j Hk Hi Hj N. destruct (F k Hk) as (_ & _ & _ & A & B & C & _). unfold idx in Hi, Hj.
    assert (i = 0 \/ i = 1 \/ i = 2) as [-> | [-> | ->]] by lia;
      assert (j = 0 \/ j = 1 \/ j = 2) as [-> | [-> | ->]] by lia; congruence.
  - intros k i Hk Hi. destruct (F k Hk) as (_ & _ & _ & _ & _ & _ & _ & _ & G0 & G1 & G2). unfold idx in Hi.
    assert (G : glueb nt a k i = true) by (assert (i = 0 \/ i = 1 \/ i = 2) as [-> | [-> | ->]] by lia; assumption).
    unfold glueb in G. apply orb_true_iff in G. destruct G as [G | G]; [left; apply Z.eqb_eq; exact G | right].
    exists (s_adj (aget a k) i / 3), (s_adj (aget a k) i mod 3).
    rewrite !andb_true_iff, orb_true_iff, negb_true_iff, Z.eqb_neq, Z.ltb_lt, !Z.leb_le, !Z.eqb_eq in G.
    destruct G as ((((((K1 & K2) & K3) & K4) & K5) & K6) & K7).
    apply Bool.eqb_prop in K6. pose proof (Z.mod_pos_bound (s_adj (aget a k) i) 3) as M.
    split; [split; [exact K1 | apply div_mod3] |]. split; [split; [lia | exact K3] |].
    split; [unfold idx; lia |]. split; [exact K4 |]. split; [split; [apply Hk | exact K5] |].
    split; [rewrite <- !innerb_ok, K6; reflexivity |].
    unfold againstb, alongb in K7. rewrite !andb_true_iff, !Z.eqb_eq in K7. exact K7.
  - intros k Hk. destruct (F k Hk) as (_ & _ & _ & _ & _ & _ & A & B & _). auto.
Qed.

(** A triangle with tags 0, references 0 and marks as [MMG5_mmgHashTria] leaves them. *)
Definition of3 (x : Z * Z * Z) (i : Z) : Z :=
  let '(a, b, c) := x in if i =? 0 then a else if i =? 1 then b else c.
Definition mk (r : Z) (v adj : Z * Z * Z) : stri :=
  mkS (of3 v) (fun _ => 0) (fun _ => 0) (of3 adj) r 0 1 0.

(** Two squares, of two triangles each, that do not touch: the two triangles of
    the first one are not oriented alike, those of the second have two references. *)
Definition squares : arr stri :=
  aof (mk 0 (0, 0, 0) (0, 0, 0))
    [mk 0 (1, 2, 3) (6, 0, 0); mk 0 (4, 2, 3) (3, 0, 0);
     mk 1 (5, 6, 7) (12, 0, 0); mk 2 (8, 7, 6) (9, 0, 0)].

Lemma squares_surface : surface 4 squares.
Proof. apply surfaceb_ok. vm_compute. reflexivity. Qed.

Lemma squares_orientable : orientable 4 squares.
Proof.
  exists (fun k => k =? 1). intros k i kk ii (R & _) Hi Hii [G0 G] _. unfold idx in *.
  assert (k = 1 \/ k = 2 \/ k = 3 \/ k = 4) as [-> | [-> | [-> | ->]]] by lia;
    assert (i = 0 \/ i = 1 \/ i = 2) as [-> | [-> | ->]] by lia;
    match type of G with ?l = _ => let x := eval vm_compute in l in change l with x in G end; try lia.
  - assert (kk = 2 /\ ii = 0) as (-> & ->) by lia. cbv. split; [intros [? ?]; discriminate | discriminate].
  - assert (kk = 1 /\ ii = 0) as (-> & ->) by lia. cbv. split; [intros [? ?]; discriminate | discriminate].
  - assert (kk = 4 /\ ii = 0) as (-> & ->) by lia. cbv. split; auto.
  - assert (kk = 3 /\ ii = 0) as (-> & ->) by lia. cbv. split; auto.
Qed.

Example squares_oriented :
  match setadj 4 false squares with
  | Ret (Some (ncc, a)) => map (fun k => (map (vtx a k) [0; 1; 2], map (tagof a k) [0; 1; 2], s_flag (aget a k))) [1; 2; 3; 4]
      = [([1; 2; 3], [0; 8; 8], 1); ([4; 3; 2], [0; 8; 8], 1); ([5; 6; 7], [1; 8; 8], 2); ([8; 7; 6], [1; 8; 8], 2)]
      /\ ncc = 2
  | _ => False
  end.
Proof. vm_compute. split; reflexivity. Qed.

(** C59.  A surface that cannot be oriented and is accepted: eight triangles, one
    Moebius strip.  The mark that tells the triangles already oriented changes at
    each visit, so that the third visit of a triangle can turn it over again. *)
Definition strip : arr stri :=
  aof (mk 0 (0, 0, 0) (0, 0, 0))
  [mk 0 (7, 1, 3) (11, 7, 22);
   mk 0 (7, 5, 3) (10, 4, 14);
   mk 0 (3, 1, 5) (20, 6, 3);
   mk 0 (5, 7, 6) (17, 0, 8);
   mk 0 (6, 7, 2) (0, 26, 12);
   mk 0 (1, 5, 2) (0, 25, 9);
   mk 0 (1, 4, 7) (0, 5, 0);
   mk 0 (2, 6, 1) (0, 19, 16)].

Lemma strip_surface : surface 8 strip.
Proof. apply surfaceb_ok. vm_compute. reflexivity. Qed.

Lemma strip_moebius : ~ orientable 8 strip.
Proof.
  intros (over & H).
  assert (X : forall k i kk ii, 1 <= k <= 8 -> idx i -> idx ii -> 1 <= kk ->
     s_adj (aget strip k) i = 3 * kk + ii -> 0 < s_v (aget strip k) 0 -> innerb strip k i = true ->
     (againstb strip k i kk ii = true <-> over k = over kk)).
  { intros k i kk ii Hk Hi Hii Hkk A U In. rewrite <- (H k i kk ii); auto.
    - unfold againstb, against. rewrite andb_true_iff, !Z.eqb_eq. reflexivity.
    - split; assumption.
    - split; assumption.
    - apply innerb_ok. exact In. }
  assert (Y : forall k i kk ii b, (1 <=? k) && (k <=? 8) && (0 <=? i) && (i <=? 2) && (0 <=? ii) && (ii <=? 2) && (1 <=? kk)
     && (s_adj (aget strip k) i =? 3 * kk + ii) && (0 <? s_v (aget strip k) 0) && innerb strip k i
     && Bool.eqb (againstb strip k i kk ii) b = true -> (b = true <-> over k = over kk)).
  { intros k i kk ii b B. rewrite !andb_true_iff, !Z.leb_le, Z.eqb_eq, Z.ltb_lt in B.
    destruct B as (B & B'). apply Bool.eqb_prop in B'. rewrite <- B'. apply X; unfold idx; tauto || lia. }
  clear H X.
  pose proof (Y 1 0 3 2 true ltac:(vm_compute; reflexivity)) as H1.
  pose proof (Y 1 1 2 1 false ltac:(vm_compute; reflexivity)) as H2.
  pose proof (Y 1 2 7 1 false ltac:(vm_compute; reflexivity)) as H3.
  pose proof (Y 2 0 3 1 false ltac:(vm_compute; reflexivity)) as H4.
  pose proof (Y 2 2 4 2 true ltac:(vm_compute; reflexivity)) as H5.
  pose proof (Y 3 0 6 2 false ltac:(vm_compute; reflexivity)) as H6.
  pose proof (Y 4 0 5 2 true ltac:(vm_compute; reflexivity)) as H7.
  pose proof (Y 5 1 8 2 false ltac:(vm_compute; reflexivity)) as H8.
  pose proof (Y 6 1 8 1 true ltac:(vm_compute; reflexivity)) as H9.
  clear Y.
  destruct (over 1), (over 2), (over 3), (over 4), (over 5), (over 6), (over 7), (over 8); intuition congruence.
Qed.

Theorem moebius_accepted_refuted :
  exists nt opn a ncc a', 1 <= nt /\ surface nt a /\ ~ orientable nt a /\
    setadj nt opn a = Ret (Some (ncc, a')) /\ ~ oriented nt a'.
Proof.
  assert (T : match setadj 8 false strip with Ret (Some (_, a)) =>
     (s_adj (aget a 7) 1 =? 3 * 1 + 1) && innerb a 7 1 && (0 <? s_v (aget a 7) 0)
     && negb (againstb a 7 1 1 1) | _ => false end = true) by (vm_compute; reflexivity).
  destruct (setadj 8 false strip) as [[[ncc a'] |] |] eqn:E; [| discriminate T | discriminate T].
  exists 8, false, strip, ncc, a'. split; [lia |]. split; [exact strip_surface |].
  split; [exact strip_moebius |]. split; [exact E |].
  rewrite !andb_true_iff, negb_true_iff, Z.eqb_eq, Z.ltb_lt in T. destruct T as (((T1 & T2) & T3) & T4).
  intros OR. assert (A : against a' 7 1 1 1).
  { apply OR; [split; [lia | exact T3] | unfold idx; lia | unfold idx; lia | split; [lia | exact T1] |].
    apply innerb_ok. exact T2. }
  assert (B : againstb a' 7 1 1 1 = true).
  { destruct A as [A1 A2]. unfold againstb. rewrite A1, A2, !Z.eqb_refl. reflexivity. }
  rewrite B in T4. discriminate T4.
Qed.

(** The same surface in mmgs, where the edges that cannot be oriented should have
    become non-manifold. *)
Theorem moebius_accepted_s_refuted :
  exists nt a ncc a', 1 <= nt /\ surface nt a /\ ~ orientable nt a /\
    setadj_s nt a = Ret (ncc, a') /\ ~ oriented nt a'.
Proof.
  assert (T : match setadj_s 8 strip with Ret (_, a) =>
     (s_adj (aget a 7) 1 =? 3 * 1 + 1) && innerb a 7 1 && (0 <? s_v (aget a 7) 0)
     && negb (againstb a 7 1 1 1) | _ => false end = true) by (vm_compute; reflexivity).
  destruct (setadj_s 8 strip) as [[ncc a'] |] eqn:E; [| discriminate T].
  exists 8, strip, ncc, a'. split; [lia |]. split; [exact strip_surface |].
  split; [exact strip_moebius |]. split; [exact E |].
  rewrite !andb_true_iff, negb_true_iff, Z.eqb_eq, Z.ltb_lt in T. destruct T as (((T1 & T2) & T3) & T4).
  intros OR. assert (A : against a' 7 1 1 1).
  { apply OR; [split; [lia | exact T3] | unfold idx; lia | unfold idx; lia | split; [lia | exact T1] |].
    apply innerb_ok. exact T2. }
  assert (B : againstb a' 7 1 1 1 = true).
  { destruct A as [A1 A2]. unfold againstb. rewrite A1, A2, !Z.eqb_refl. reflexivity. }
  rewrite B in T4. discriminate T4.
Qed.

(** A Moebius strip that is found: three triangles glued in a ring with one twist
    have too few vertices, five are enough. *)
Definition ring : arr stri :=
  aof (mk 0 (0, 0, 0) (0, 0, 0))
  [mk 0 (1, 2, 3) (8, 0, 15);
   mk 0 (2, 3, 4) (11, 0, 3);
   mk 0 (3, 4, 5) (14, 0, 6);
   mk 0 (4, 5, 1) (17, 0, 9);
   mk 0 (5, 1, 2) (5, 0, 12)].

Lemma ring_surface : surface 5 ring.
Proof. apply surfaceb_ok. vm_compute. reflexivity. Qed.

Example ring_found : setadj 5 false ring = Ret None.
Proof. vm_compute. reflexivity. Qed.

(** Without triangle the first cell of the pile is outside the array. *)
Example no_triangle : setadj 0 false (aof (mk 0 (0, 0, 0) (0, 0, 0)) []) = Stuck.
Proof. vm_compute. reflexivity. Qed.

Print Assumptions orients.
Print Assumptions components.
Print Assumptions failure_is_moebius.
Print Assumptions moebius_accepted_refuted.
Print Assumptions moebius_accepted_s_refuted.
