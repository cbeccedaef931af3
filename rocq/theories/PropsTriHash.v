(** C60, C61: the adjacencies of the triangles of a surface, and the duplicated
    triangles. *)
From Coq Require Import ZArith List Bool Lia.
From Verif Require Import CBase HashModel HashSpec SurfModel SurfProofs SurfLoop PropsSurf.
From Verif Require Import TriHash TriHashProofs TriHashDup.
Import ListNotations.
Open Scope Z_scope.

(** ** Vocabulary *)

(** The edge [i] of [k] and the edge [ii] of [kk] have the same ends. *)
Definition shares (a : arr stri) (k i kk ii : Z) : Prop := against a k i kk ii \/ along a k i kk ii.

(** An edge of the surface, not of a boundary between processors only. *)
Definition geometric (a : arr stri) (k i : Z) : Prop :=
  bit (tagof a k i) 13 = true -> bit (tagof a k i) 12 = true.

Definition real_edge (nt : Z) (a : arr stri) (k i : Z) : Prop := used nt a k /\ idx i /\ geometric a k i.

(** At least two other triangles have the edge [i] of [k]. *)
Definition crowded (nt : Z) (a : arr stri) (k i : Z) : Prop :=
  exists k1 i1 k2 i2, real_edge nt a k1 i1 /\ real_edge nt a k2 i2 /\
    k1 <> k /\ k2 <> k /\ k1 <> k2 /\ shares a k i k1 i1 /\ shares a k i k2 i2.

(** A triangle of a boundary between processors has the edge [i] of [k]. *)
Definition touches (nt : Z) (a : arr stri) (k i : Z) : Prop :=
  exists kk ii, used nt a kk /\ idx ii /\ ~ geometric a kk ii /\ shares a kk ii k i.

(** Triangles with three different vertices, nothing being glued yet. *)
Record triangles (nt : Z) (a : arr stri) : Prop := {
  t_nt : 0 <= nt;
  t_len : alen a = nt + 1;
  t_pos : forall k i, used nt a k -> idx i -> 0 < vtx a k i;
  t_dif : forall k i j, used nt a k -> idx i -> idx j -> i <> j -> vtx a k i <> vtx a k j;
  t_new : forall k i, used nt a k -> idx i -> alone a k i
}.

Definition same_triangle (a : arr stri) (k m : Z) : Prop :=
  forall i, idx i -> exists j, idx j /\ vtx a k i = vtx a m j.

Definition distinct (nt : Z) (a : arr stri) : Prop :=
  forall k m, used nt a k -> used nt a m -> same_triangle a k m -> k = m.

(** ** Lemmas *)

Lemma shares_sE a k i kk ii : idx i -> idx ii ->
  (shares a k i kk ii <-> sE a (3 * k + i) (3 * kk + ii)).
Proof.
  intros Hi Hii. apply idx_in3 in Hi. apply idx_in3 in Hii.
  unfold shares, against, along, sE, sP, sQ, same_edge, vtx. rewrite !div3, !mod3 by assumption.
  rewrite !nx_nxt, !pv_prv by assumption. rewrite orb_true_iff, !andb_true_iff, !Z.eqb_eq. tauto.
Qed.

Lemma geometric_par a k i : geometric a k i <-> par_only (tagof a k i) = false.
Proof.
  unfold geometric, par_only. rewrite tst_12, tst_13.
  destruct (bit _ 13), (bit _ 12); cbn; intuition congruence.
Qed.

Lemma slot_sg a k i : in3 i -> sg a (3 * k + i) = tagof a k i.
Proof. intros Hi. unfold sg, tagof. rewrite div3, mod3 by exact Hi. reflexivity. Qed.
Lemma slot_sa a k i : in3 i -> sa a (3 * k + i) = s_adj (aget a k) i.
Proof. intros Hi. unfold sa. rewrite div3, mod3 by exact Hi. reflexivity. Qed.

Lemma real_HS nt a k i : in3 i -> (real_edge nt a k i <-> HS nt a (3 * k + i)).
Proof.
  intros Hi. unfold real_edge, HS, US. rewrite slot_sg, div3 by exact Hi.
  rewrite <- used_ok, geometric_par, idx_in3. tauto.
Qed.

Lemma HS_real nt a e : HS nt a e -> real_edge nt a (e / 3) (e mod 3).
Proof. intros H. apply real_HS; [apply in3_mod|]. rewrite <- slot_eq. exact H. Qed.

Lemma slot_shares a e e' : sE a e e' <-> shares a (e / 3) (e mod 3) (e' / 3) (e' mod 3).
Proof.
  rewrite shares_sE by (apply idx_in3, in3_mod). rewrite <- !slot_eq. reflexivity.
Qed.

Section Lemmas.
Variable nt : Z.
Variable a : arr stri.
Hypothesis T : triangles nt a.

Lemma T_pos k i : ok nt a k -> in3 i -> 0 < s_v (aget a k) i.
Proof. intros Hk Hi. apply (t_pos _ _ T); [apply used_ok; exact Hk | apply idx_in3; exact Hi]. Qed.
Lemma T_dif k i j : ok nt a k -> in3 i -> in3 j -> i <> j -> s_v (aget a k) i <> s_v (aget a k) j.
Proof.
  intros Hk Hi Hj. apply (t_dif _ _ T); [apply used_ok; exact Hk | apply idx_in3; exact Hi | apply idx_in3; exact Hj].
Qed.
Lemma T_new e : US nt a e -> sa a e = 0.
Proof.
  intros H. apply used_ok in H. exact (t_new _ _ T _ _ H (proj2 (idx_in3 _) (in3_mod e))).
Qed.

Lemma idx_three i j : in3 i -> in3 j -> j = i \/ j = nxt i \/ j = prv i.
Proof. intros Hi Hj. case3 Hi; case3 Hj; cbv; tauto. Qed.

(** Two edges of one triangle have different ends. *)
Lemma own_edges e e' : US nt a e -> e / 3 = e' / 3 -> sE a e e' -> e = e'.
Proof.
  intros Hu E S. apply slot_shares in S. rewrite <- E in S.
  assert (X : e mod 3 = e' mod 3).
  { pose proof (in3_mod e) as I1. pose proof (in3_mod e') as I2.
    red in Hu. set (i := e mod 3) in *. set (j := e' mod 3) in *. set (k := e / 3) in *. clearbody i j k.
    pose proof (T_dif k 0 1 Hu) as D1. pose proof (T_dif k 1 2 Hu) as D2. pose proof (T_dif k 0 2 Hu) as D3.
    specialize (D1 ltac:(now left) ltac:(now right; left) ltac:(discriminate)).
    specialize (D2 ltac:(now right; left) ltac:(now right; right) ltac:(discriminate)).
    specialize (D3 ltac:(now left) ltac:(now right; right) ltac:(discriminate)).
    unfold shares, against, along, vtx in S.
    case3 I1; case3 I2; try reflexivity; exfalso;
      change (nxt 0) with 1 in S; change (nxt 1) with 2 in S; change (nxt 2) with 0 in S;
      change (prv 0) with 2 in S; change (prv 1) with 0 in S; change (prv 2) with 1 in S;
      intuition congruence. }
  rewrite (slot_eq e), (slot_eq e'), E, X. reflexivity.
Qed.

Lemma T_dup : distinct nt a ->
  forall e e', US nt a e -> US nt a e' -> sE a e e' -> sO a e = sO a e' -> e = e'.
Proof.
  intros Di e e' H H' S O.
  assert (E : e' / 3 = e / 3).
  { apply Di; [apply used_ok; exact H' | apply used_ok; exact H |].
    intros i Hi. apply idx_in3 in Hi.
    destruct (opposite_twins 0 (fun x => x) a e e' S O i Hi) as (j & Hj & V).
    exists j. split; [apply idx_in3; exact Hj | exact V]. }
  apply own_edges; [exact H | symmetry; exact E | exact S].
Qed.

Lemma crowded_three e : US nt a e -> (crowded nt a (e / 3) (e mod 3) <-> three a (HS nt a) e).
Proof.
  intros He. split.
  - intros (k1 & i1 & k2 & i2 & R1 & R2 & N1 & N2 & N3 & S1 & S2).
    pose proof (proj1 (proj2 R1)) as I1. pose proof (proj1 (proj2 R2)) as I2.
    exists (3 * k1 + i1), (3 * k2 + i2).
    apply shares_sE in S1; [|apply idx_in3, in3_mod | exact I1].
    apply shares_sE in S2; [|apply idx_in3, in3_mod | exact I2].
    rewrite <- slot_eq in S1, S2. apply idx_in3 in I1. apply idx_in3 in I2.
    sp; try assumption.
    + apply real_HS; assumption.
    + apply real_HS; assumption.
    + intros C. apply N1. rewrite <- C. symmetry. apply div3. exact I1.
    + intros C. apply N2. rewrite <- C. symmetry. apply div3. exact I2.
    + intros C. destruct (eq3 _ _ _ _ I1 I2 C). contradiction.
  - intros (e1 & e2 & D1 & D2 & N1 & N2 & N3 & S1 & S2).
    exists (e1 / 3), (e1 mod 3), (e2 / 3), (e2 mod 3).
    sp; try (apply HS_real; assumption); try (apply slot_shares; assumption).
    + intros C. apply N1. apply own_edges; [apply D1 | exact C | apply same_edge_sym; exact S1].
    + intros C. apply N2. apply own_edges; [apply D2 | exact C | apply same_edge_sym; exact S2].
    + intros C. apply N3. apply own_edges; [apply D1 | exact C |].
      eapply same_edge_trans; [apply same_edge_sym; exact S1 | exact S2].
Qed.

Lemma touches_PS e : (touches nt a (e / 3) (e mod 3) <-> exists s, PS nt a s /\ sE a s e).
Proof.
  split.
  - intros (kk & ii & U & Hi & NG & S). exists (3 * kk + ii).
    apply shares_sE in S; [|exact Hi | apply idx_in3, in3_mod]. rewrite <- slot_eq in S. split; [|exact S].
    apply idx_in3 in Hi. split; [unfold US; rewrite div3 by exact Hi; apply used_ok; exact U|].
    rewrite slot_sg by exact Hi. rewrite geometric_par in NG. destruct (par_only _); [reflexivity | congruence].
  - intros (s & [U P] & S). exists (s / 3), (s mod 3). split; [apply used_ok; exact U|].
    split; [apply idx_in3, in3_mod|]. split; [|apply slot_shares; exact S].
    rewrite geometric_par. unfold sg in P. unfold tagof. congruence.
Qed.

End Lemmas.

Lemma bit_con n : 0 <= n -> bit T_CON n = (n =? 4) || (n =? 12).
Proof.
  intros H. unfold bit. change T_CON with (Z.lor (2 ^ 4) (2 ^ 12)). rewrite Z.lor_spec, !Z.pow2_bits_eqb by lia.
  rewrite (Z.eqb_sym 4), (Z.eqb_sym 12). reflexivity.
Qed.
Lemma bit_nm n : 0 <= n -> bit T_NOM n = (n =? 3).
Proof. intros H. unfold bit. change T_NOM with (2 ^ 3). rewrite Z.pow2_bits_eqb by lia. apply Z.eqb_sym. Qed.

(** ** C60 *)

(** What the function leaves: the triangles themselves, with their marks reset;
    on each edge either nothing, or the other triangle of that edge; the tag
    MG_NOM (3) on the edges of three triangles and more; the tags MG_BDY (4)
    and MG_PARBDYBDY (12) on the edges that touch a boundary between processors. *)
Record hashed (nt base : Z) (a a' : arr stri) : Prop := {
  h_same : alen a' = alen a /\ forall k i, vtx a' k i = vtx a k i /\
             s_edg (aget a' k) i = s_edg (aget a k) i /\ s_ref (aget a' k) = s_ref (aget a k);
  h_mark : forall k, used nt a k -> s_flag (aget a' k) = 0 /\ s_base (aget a' k) = base;
  h_adj : forall k i, used nt a k -> idx i -> alone a' k i \/
     exists kk ii, glued a' k i kk ii /\ glued a' kk ii k i /\ kk <> k /\
       real_edge nt a k i /\ real_edge nt a kk ii /\ shares a k i kk ii;
  h_both : forall k i kk ii, real_edge nt a k i -> real_edge nt a kk ii -> kk <> k -> shares a k i kk ii ->
     glued a' k i kk ii \/ crowded nt a k i;
  h_nom : forall k i, used nt a k -> idx i ->
     (bit (tagof a' k i) 3 = true <-> bit (tagof a k i) 3 = true \/ (geometric a k i /\ crowded nt a k i));
  h_con : forall k i n, used nt a k -> idx i -> n = 4 \/ n = 12 ->
     (bit (tagof a k i) n = true -> bit (tagof a' k i) n = true) /\
     (bit (tagof a' k i) n = true -> bit (tagof a k i) n = true \/ (geometric a k i /\ touches nt a k i)) /\
     (geometric a k i -> touches nt a k i -> ~ (alone a' k i /\ crowded nt a k i) -> bit (tagof a' k i) n = true);
  h_tag : forall k i n, used nt a k -> idx i -> 0 <= n -> n <> 3 -> n <> 4 -> n <> 12 ->
     bit (tagof a' k i) n = bit (tagof a k i) n
}.

Theorem hash_gives_neighbours : forall nt np iso isoref base gr a,
  1 <= np -> triangles nt a -> distinct nt a ->
  exists o, hash_tria nt iso isoref base gr np a = Ret o /\
    ((forall e, 1 <= gr e) -> o <> None) /\
    (forall a', o = Some a' -> hashed nt base a a').
Proof.
  intros nt np iso isoref base gr a Hnp T Di.
  destruct (hash_tria_ok nt iso isoref base gr a (t_len _ _ T) (T_pos nt a T) (T_new nt a T) (T_dup nt a T Di) np Hnp (t_nt _ _ T))
    as (o & E & C).
  exists o. split; [exact E|]. split.
  { intros G ->. destruct C as [e C]. specialize (G e). lia. }
  intros a' ->. destruct C as [[K1 K2 K3 K4 K5] Mk Ad Al Tg].
  assert (US3 : forall k i, used nt a k -> in3 i -> US nt a (3 * k + i)).
  { intros k i Hk Hi. unfold US. rewrite div3 by exact Hi. apply used_ok. exact Hk. }
  constructor.
  - split; [exact K1|]. intros k i. unfold vtx. rewrite K2, K3, K4. auto.
  - intros k Hk. apply Mk, used_ok, Hk.
  - intros k i Hk Hi. apply idx_in3 in Hi. destruct (Ad _ (US3 k i Hk Hi)) as [Q | (H1 & H2 & N & S & B)].
    + left. rewrite slot_sa in Q by exact Hi. exact Q.
    + right. remember (sa a' (3 * k + i)) as e eqn:Ee.
      rewrite slot_sa in Ee by exact Hi. exists (e / 3), (e mod 3).
      pose proof (HS_real _ _ _ H2) as R2.
      assert (G1 : glued a' k i (e / 3) (e mod 3)).
      { split; [destruct R2 as [[? _] _]; lia | rewrite <- Ee; apply slot_eq]. }
      assert (G2 : glued a' (e / 3) (e mod 3) k i) by (split; [apply Hk | exact B]).
      sp; auto.
      * intros C. apply N. symmetry. apply (own_edges nt a T); [apply H1 | rewrite div3 by exact Hi; congruence | exact S].
      * apply real_HS; assumption.
      * apply shares_sE; [apply idx_in3; exact Hi | apply idx_in3, in3_mod | rewrite <- slot_eq; exact S].
  - intros k i kk ii R1 R2 N S. pose proof (proj1 (proj2 R1)) as I1. pose proof (proj1 (proj2 R2)) as I2.
    apply shares_sE in S; [|exact I1 | exact I2]. apply idx_in3 in I1. apply idx_in3 in I2.
    apply real_HS in R1; [|exact I1]. apply real_HS in R2; [|exact I2].
    destruct (Al _ _ R1 R2) as [Q | Q]; [intros C; destruct (eq3 _ _ _ _ I1 I2 C); congruence | exact S | |].
    + left. rewrite slot_sa in Q by exact I1. split; [|exact Q].
      destruct R2 as [[R2 _] _]. rewrite div3 in R2 by exact I2. lia.
    + right. apply (crowded_three nt a T) in Q; [|apply R1]. rewrite div3, mod3 in Q by exact I1. exact Q.
  - intros k i Hk Hi. apply idx_in3 in Hi. destruct (Tg _ (US3 k i Hk Hi)) as (nom & bd & G & N & _).
    rewrite !slot_sg in G by exact Hi. rewrite <- real_HS in N by exact Hi.
    rewrite <- (crowded_three nt a T) in N by (apply US3; assumption). rewrite div3, mod3 in N by exact Hi.
    rewrite G, bit_lor. replace (bit (if bd then T_CON else 0) 3) with false by (destruct bd; reflexivity).
    rewrite orb_false_r.
    assert (N' : nom = true <-> geometric a k i /\ crowded nt a k i).
    { rewrite N. unfold real_edge. rewrite idx_in3. tauto. }
    rewrite <- N'. destruct nom; [rewrite bit_lor, orb_true_iff; cbn; tauto | intuition congruence].
  - intros k i n Hk Hi Hn. apply idx_in3 in Hi. destruct (Tg _ (US3 k i Hk Hi)) as (nom & bd & G & _ & B1 & B2).
    rewrite !slot_sg in G by exact Hi. rewrite <- real_HS in B1, B2 by exact Hi.
    rewrite <- touches_PS in B1, B2. rewrite <- (crowded_three nt a T) in B2 by (apply US3; assumption).
    rewrite div3, mod3 in B1, B2 by exact Hi. rewrite slot_sa in B2 by exact Hi.
    assert (Hn0 : 0 <= n) by (destruct Hn as [-> | ->]; discriminate).
    assert (X : bit (tagof a' k i) n = bit (tagof a k i) n || bd).
    { rewrite G, bit_lor. f_equal.
      - destruct nom; [|reflexivity]. rewrite bit_lor, bit_nm by exact Hn0.
        replace (n =? 3) with false by lia. apply orb_false_r.
      - destruct bd; [|apply Z.testbit_0_l]. rewrite bit_con by exact Hn0. destruct Hn as [-> | ->]; reflexivity. }
    rewrite X. sp.
    + intros ->. reflexivity.
    + rewrite orb_true_iff. intros [Q | Q]; [left; exact Q | right]. destruct (B1 Q) as [(_ & _ & Q1) Q2]. auto.
    + intros Hg Ht Nc. destruct bd; [apply orb_true_r|]. exfalso. apply Nc.
      apply B2; [reflexivity | split; [exact Hk | split; [apply idx_in3; exact Hi | exact Hg]] | exact Ht].
  - intros k i n Hk Hi Hn N3 N4 N12. apply idx_in3 in Hi. destruct (Tg _ (US3 k i Hk Hi)) as (nom & bd & G & _).
    rewrite !slot_sg in G by exact Hi. rewrite G, bit_lor.
    replace (bit (if bd then T_CON else 0) n) with false.
    2: { destruct bd; [rewrite bit_con by exact Hn|symmetry; apply Z.testbit_0_l]. lia. }
    rewrite orb_false_r. destruct nom; [|reflexivity]. rewrite bit_lor, bit_nm by exact Hn.
    replace (n =? 3) with false by lia. apply orb_false_r.
Qed.

(** When the tags MG_NOM and MG_BDY that are there at the beginning are the same on
    all the triangles of an edge, the result is a surface in the sense of C57. *)
Definition same_kind (nt : Z) (a : arr stri) : Prop :=
  forall k i kk ii, real_edge nt a k i -> real_edge nt a kk ii -> shares a k i kk ii ->
    bit (tagof a k i) 3 = bit (tagof a kk ii) 3 /\ bit (tagof a k i) 4 = bit (tagof a kk ii) 4.

Lemma shares_sym a k i kk ii : shares a k i kk ii -> shares a kk ii k i.
Proof. unfold shares, against, along. intuition congruence. Qed.

Lemma crowded_sym nt a k i kk ii : triangles nt a ->
  real_edge nt a k i -> real_edge nt a kk ii -> shares a k i kk ii ->
  crowded nt a k i -> crowded nt a kk ii.
Proof.
  intros T R1 R2 S C. pose proof (proj1 (proj2 R1)) as I1. pose proof (proj1 (proj2 R2)) as I2.
  apply shares_sE in S; [|exact I1 | exact I2]. apply idx_in3 in I1. apply idx_in3 in I2.
  apply real_HS in R1; [|exact I1]. apply real_HS in R2; [|exact I2].
  assert (C1 : crowded nt a ((3 * k + i) / 3) ((3 * k + i) mod 3)) by (rewrite div3, mod3 by exact I1; exact C).
  apply (crowded_three nt a T) in C1; [|apply R1].
  enough (C2 : three a (HS nt a) (3 * kk + ii)).
  { apply (crowded_three nt a T) in C2; [|apply R2]. rewrite div3, mod3 in C2 by exact I2. exact C2. }
  destruct C1 as (e1 & e2 & D1 & D2 & N1 & N2 & N3 & S1 & S2).
  remember (3 * k + i) as x. remember (3 * kk + ii) as y.
  assert (Y : forall e, sE a x e -> sE a y e).
  { intros e H. eapply same_edge_trans; [apply same_edge_sym; exact S | exact H]. }
  destruct (Z.eq_dec e1 y) as [-> | Ne1].
  - destruct (Z.eq_dec x y) as [<- | Nxy]; [contradiction|].
    exists x, e2. sp; auto. apply same_edge_sym; exact S.
  - destruct (Z.eq_dec e2 y) as [-> | Ne2].
    + exists x, e1. sp; auto. apply same_edge_sym; exact S.
    + exists e1, e2. sp; auto.
Qed.

Theorem hash_gives_surface : forall nt base a a',
  triangles nt a -> same_kind nt a -> 0 < base -> hashed nt base a a' -> surface nt a'.
Proof.
  intros nt base a a' T SK Hb [[Len Sm] Mk Ad Bo No Co Tg].
  assert (Us : forall k, used nt a' k <-> used nt a k).
  { intros k. unfold used. destruct (Sm k 0) as [E _]. unfold vtx in E. rewrite E. tauto. }
  assert (V : forall k i, vtx a' k i = vtx a k i) by (intros; apply Sm).
  assert (B13 : forall k i, used nt a k -> idx i -> bit (tagof a' k i) 13 = bit (tagof a k i) 13) by (intros; apply Tg; auto; lia).
  assert (Gd : forall k i, real_edge nt a k i -> bit (tagof a' k i) 13 = true -> bit (tagof a' k i) 12 = true).
  { intros k i (Hk & Hi & G). rewrite B13 by assumption. intros H. apply (proj1 (Co k i 12 Hk Hi (or_intror eq_refl))), G, H. }
  assert (Half : forall k i kk ii, real_edge nt a k i -> real_edge nt a kk ii -> shares a k i kk ii ->
     ~ alone a' k i -> ~ alone a' kk ii -> inner a' k i -> inner a' kk ii).
  { intros k i kk ii R1 R2 S A1 A2 (I3 & I4 & I13). destruct (SK _ _ _ _ R1 R2 S) as [K3 K4].
    pose proof R1 as (U1 & X1 & G1). pose proof R2 as (U2 & X2 & G2). unfold inner. sp.
    - destruct (bit (tagof a' kk ii) 3) eqn:Q; [|reflexivity]. exfalso.
      assert (Z1 : bit (tagof a' k i) 3 = true); [|congruence].
      apply No; [exact U1 | exact X1|]. apply No in Q; [|exact U2 | exact X2].
      destruct Q as [Q | [Q1 Q2]]; [left; congruence | right; split; [exact G1|]].
      apply (crowded_sym nt a kk ii k i T R2 R1 (shares_sym _ _ _ _ _ S) Q2).
    - destruct (bit (tagof a' kk ii) 4) eqn:Q; [|reflexivity]. exfalso.
      assert (Z1 : bit (tagof a' k i) 4 = true); [|congruence].
      destruct (Co k i 4 U1 X1) as (C1 & C2 & C3); [left; reflexivity|].
      destruct (Co kk ii 4 U2 X2) as (C1' & C2' & C3'); [left; reflexivity|].
      destruct (C2' Q) as [Q1 | [_ Q1]]; [apply C1; congruence|].
      apply C3; [exact G1 | | intros [C _]; exact (A1 C)].
      destruct Q1 as (m & j & M1 & M2 & M3 & M4). exists m, j. sp; auto.
      apply shares_sE; [exact M2 | exact X1|]. apply shares_sE in M4; [|exact M2 | exact X2].
      apply shares_sE in S; [|exact X1 | exact X2].
      eapply same_edge_trans; [exact M4 | apply same_edge_sym; exact S].
    - apply Gd. exact R2. }
  constructor.
  - rewrite Len. apply (t_len _ _ T).
  - intros k i Hk Hi. rewrite V. apply (t_pos _ _ T); [apply Us; exact Hk | exact Hi].
  - intros k i j Hk Hi Hj. rewrite !V. apply (t_dif _ _ T); [apply Us; exact Hk | exact Hi | exact Hj].
  - intros k i Hk Hi. apply Us in Hk. destruct (Ad k i Hk Hi) as [Q | (kk & ii & G1 & G2 & N & R1 & R2 & S)]; [left; exact Q | right].
    assert (A1 : ~ alone a' k i).
    { intros C. destruct G1 as [G0 G1]. red in C. destruct R2 as (_ & R2 & _). unfold idx in R2. lia. }
    assert (A2 : ~ alone a' kk ii).
    { intros C. destruct G2 as [G0 G2]. red in C. unfold idx in Hi. lia. }
    exists kk, ii. sp; auto.
    + apply Us, R2.
    + apply R2.
    + split; apply Half; auto using shares_sym.
    + unfold shares, against, along in *. rewrite !V. exact S.
  - intros k Hk. apply Us in Hk. destruct (Mk k Hk) as [-> ->]. auto.
Qed.

(** ** Cases *)

Definition tri3 (x y z r : Z) : stri :=
  mkS (fun i => if i =? 0 then x else if i =? 1 then y else z) (fun _ => 0) (fun _ => 0) (fun _ => 0) r 0 0 0.

Definition mesh3 (l : list stri) : arr stri := aof (tri3 0 0 0 0) l.

(** Boolean forms of the hypotheses, for meshes of [tri3]. *)
Definition idxs : list Z := [0; 1; 2].
Lemma idxs_all i : idx i -> In i idxs.
Proof. unfold idx, idxs. intros H. cbn. lia. Qed.

Definition good_b (l : list stri) : bool :=
  forallb (fun t => (0 <? s_v t 0) && (0 <? s_v t 1) && (0 <? s_v t 2) &&
    negb (s_v t 0 =? s_v t 1) && negb (s_v t 0 =? s_v t 2) && negb (s_v t 1 =? s_v t 2) &&
    forallb (fun i => (s_adj t i =? 0) && negb (bit (s_tag t i) 13)) idxs) l.

Lemma mesh3_used l k : used (Z.of_nat (length l)) (mesh3 l) k -> In (aget (mesh3 l) k) l.
Proof.
  intros [H _]. unfold mesh3, aof. cbn [aget]. destruct (Z.leb_spec k 0); [lia|]. apply nth_In. lia.
Qed.

Lemma mesh3_good l : good_b l = true ->
  triangles (Z.of_nat (length l)) (mesh3 l) /\
  (forall k i, used (Z.of_nat (length l)) (mesh3 l) k -> idx i -> geometric (mesh3 l) k i).
Proof.
  intros G. unfold good_b in G. rewrite forallb_forall in G.
  assert (X : forall k, used (Z.of_nat (length l)) (mesh3 l) k -> let t := aget (mesh3 l) k in
    0 < s_v t 0 /\ 0 < s_v t 1 /\ 0 < s_v t 2 /\ s_v t 0 <> s_v t 1 /\ s_v t 0 <> s_v t 2 /\ s_v t 1 <> s_v t 2 /\
    forall i, idx i -> s_adj t i = 0 /\ bit (s_tag t i) 13 = false).
  { intros k Hk t. specialize (G t (mesh3_used l k Hk)). rewrite !andb_true_iff in G.
    destruct G as [[[[[[G1 G2] G3] G4] G5] G6] G7]. rewrite forallb_forall in G7.
    assert (G8 : forall i, idx i -> s_adj t i = 0 /\ bit (s_tag t i) 13 = false).
    { intros i Hi. specialize (G7 i (idxs_all i Hi)). apply andb_prop in G7. destruct G7 as [Y1 Y2].
      apply Z.eqb_eq in Y1. apply negb_true_iff in Y2. auto. }
    apply Z.ltb_lt in G1, G2, G3. apply negb_true_iff in G4, G5, G6. apply Z.eqb_neq in G4, G5, G6.
    repeat (split; [assumption|]). exact G8. }
  split.
  - constructor.
    + lia.
    + unfold mesh3, aof. cbn [alen]. lia.
    + intros k i Hk Hi. destruct (X k Hk) as (X1 & X2 & X3 & _). unfold vtx. apply idx_in3 in Hi.
      case3 Hi; assumption.
    + intros k i j Hk Hi Hj N. destruct (X k Hk) as (_ & _ & _ & X1 & X2 & X3 & _). unfold vtx.
      apply idx_in3 in Hi. apply idx_in3 in Hj. case3 Hi; case3 Hj; congruence.
    + intros k i Hk Hi. destruct (X k Hk) as (_ & _ & _ & _ & _ & _ & X7). apply X7. exact Hi.
  - intros k i Hk Hi Q. destruct (X k Hk) as (_ & _ & _ & _ & _ & _ & X7). destruct (X7 i Hi) as [_ Y].
    unfold tagof in Q. congruence.
Qed.

Definition subset_b (t u : stri) : bool :=
  forallb (fun i => existsb (fun j => s_v t i =? s_v u j) idxs) idxs.

Definition distinct_b (l : list stri) : bool :=
  let n := length l in
  forallb (fun x => forallb (fun y => Nat.eqb x y || negb (subset_b (nth x l (tri3 0 0 0 0)) (nth y l (tri3 0 0 0 0))))
    (seq 0 n)) (seq 0 n).

Lemma mesh3_distinct l : distinct_b l = true -> distinct (Z.of_nat (length l)) (mesh3 l).
Proof.
  intros D k m [Hk _] [Hm _] S. unfold distinct_b in D. rewrite forallb_forall in D.
  specialize (D (Z.to_nat (k - 1))). rewrite forallb_forall in D.
  specialize (D ltac:(apply in_seq; lia) (Z.to_nat (m - 1)) ltac:(apply in_seq; lia)).
  apply orb_prop in D. destruct D as [D | D]; [apply Nat.eqb_eq in D; lia|]. exfalso.
  apply negb_true_iff in D. apply not_true_iff_false in D. apply D. unfold subset_b. apply forallb_forall.
  intros i Hi. assert (Ii : idx i) by (unfold idx, idxs in *; cbn in Hi; lia).
  destruct (S i Ii) as (j & Hj & V). apply existsb_exists. exists j. split; [apply idxs_all; exact Hj|].
  apply Z.eqb_eq. unfold vtx, mesh3, aof in V. cbn [aget] in V.
  destruct (Z.leb_spec k 0); [lia|]. destruct (Z.leb_spec m 0); [lia|]. exact V.
Qed.

(** The four faces of a tetrahedron and a fifth triangle on one of its edges. *)
Definition winged : list stri :=
  [tri3 2 3 4 0; tri3 3 1 4 0; tri3 1 2 4 0; tri3 1 3 2 0; tri3 1 2 5 0].

Example winged_good : triangles 5 (mesh3 winged) /\ distinct 5 (mesh3 winged).
Proof.
  split; [exact (proj1 (mesh3_good winged eq_refl)) | apply (mesh3_distinct winged); vm_compute; reflexivity].
Qed.

Definition adjs (nt : Z) (a : arr stri) : list (list Z) :=
  map (fun k => map (s_adj (aget a (Z.of_nat k))) idxs) (seq 1 (Z.to_nat nt)).
Definition tags (nt : Z) (a : arr stri) : list (list Z) :=
  map (fun k => map (s_tag (aget a (Z.of_nat k))) idxs) (seq 1 (Z.to_nat nt)).
Definition show (nt : Z) (o : outcome (option (arr stri))) : option (list (list Z) * list (list Z)) :=
  match o with Ret (Some a) => Some (adjs nt a, tags nt a) | _ => None end.

(** The edge 1-2 has three triangles, all tagged, and the two first ones are glued. *)
Example winged_hashed :
  show 5 (hash_tria 5 false 10 1 (fun _ => 10) 5 (mesh3 winged)) =
    Some ([[7; 9; 12]; [10; 3; 14]; [4; 6; 13]; [5; 11; 8]; [0; 0; 0]],
          [[0; 0; 0]; [0; 0; 0]; [0; 0; 8]; [0; 8; 0]; [0; 0; 8]]).
Proof. vm_compute. reflexivity. Qed.

Example winged_surface : exists a', hash_tria 5 false 10 1 (fun _ => 10) 5 (mesh3 winged) = Ret (Some a') /\
  hashed 5 1 (mesh3 winged) a' /\ surface 5 a' /\ crowded 5 (mesh3 winged) 3 2.
Proof.
  destruct winged_good as [T D].
  destruct (hash_gives_neighbours 5 5 false 10 1 (fun _ => 10) (mesh3 winged) ltac:(lia) T D) as (o & E & No & Ok).
  destruct o as [a'|]; [|exfalso; apply No; [lia | reflexivity]]. exists a'. split; [exact E|].
  specialize (Ok a' eq_refl). split; [exact Ok|]. split.
  - apply (hash_gives_surface 5 1 (mesh3 winged)); [exact T | | lia | exact Ok].
    intros k i kk ii (U1 & _ & _) (U2 & _ & _) _. apply (mesh3_used winged) in U1. apply (mesh3_used winged) in U2.
    unfold tagof. cbn in U1, U2.
    assert (Z0 : forall t, In t winged -> forall x, s_tag t x = 0).
    { intros t [<- | [<- | [<- | [<- | [<- | []]]]]] x; reflexivity. }
    rewrite !Z0 by assumption. auto.
  - destruct (mesh3_good winged eq_refl) as [_ G].
    assert (U4 : used 5 (mesh3 winged) 4) by (split; [lia | reflexivity]).
    assert (U5 : used 5 (mesh3 winged) 5) by (split; [lia | reflexivity]).
    assert (I1 : idx 1) by (unfold idx; lia). assert (I2 : idx 2) by (unfold idx; lia).
    exists 4, 1, 5, 2. split; [exact (conj U4 (conj I1 (G _ _ U4 I1)))|].
    split; [exact (conj U5 (conj I2 (G _ _ U5 I2)))|].
    split; [lia|]. split; [lia|]. split; [lia|]. split.
    + left. split; reflexivity.
    + right. split; reflexivity.
Qed.

(** Two triangles glued along 2-3, and a third one with that edge, on a boundary
    between processors only: it is glued to nothing, and the two others are told. *)
Definition shared3 : list stri :=
  [tri3 2 3 4 0; tri3 1 3 2 0;
   mkS (s_v (tri3 2 3 5 0)) (fun i => if i =? 2 then 8192 else 0) (fun _ => 0) (fun _ => 0) 0 0 0 0].

Example shared3_hashed :
  show 3 (hash_tria 3 false 10 1 (fun _ => 10) 5 (mesh3 shared3)) =
    Some ([[0; 0; 6]; [5; 0; 0]; [0; 0; 0]],
          [[0; 0; 4112]; [4112; 0; 0]; [0; 0; 8192]]).
Proof. vm_compute. reflexivity. Qed.

Example shared3_touches : triangles 3 (mesh3 shared3) /\ distinct 3 (mesh3 shared3) /\ touches 3 (mesh3 shared3) 1 2.
Proof.
  split; [|split; [apply (mesh3_distinct shared3); vm_compute; reflexivity|]].
  - constructor; try (cbn; lia).
    + intros k i Hk Hi. apply (mesh3_used shared3) in Hk. unfold vtx. apply idx_in3 in Hi.
      destruct Hk as [<- | [<- | [<- | []]]]; case3 Hi; cbn; lia.
    + intros k i j Hk Hi Hj. apply (mesh3_used shared3) in Hk. unfold vtx. apply idx_in3 in Hi. apply idx_in3 in Hj.
      destruct Hk as [<- | [<- | [<- | []]]]; case3 Hi; case3 Hj; cbn; lia.
    + intros k i Hk Hi. apply (mesh3_used shared3) in Hk. unfold alone.
      destruct Hk as [<- | [<- | [<- | []]]]; reflexivity.
  - exists 3, 2. split; [split; [lia | reflexivity]|]. split; [unfold idx; lia|]. split.
    + intros C. discriminate (C eq_refl).
    + right. split; reflexivity.
Qed.

(** ** C61 *)

(** What disappears has a twin with a smaller number that stays. *)
Theorem removed_has_twin : forall nt np iso isoref base gr a,
  1 <= np -> triangles nt a -> (forall k i, used nt a k -> idx i -> geometric a k i) ->
  exists o, hash_tria nt iso isoref base gr np a = Ret o /\
    forall a', o = Some a' ->
      (forall k, used nt a' k -> used nt a k /\ forall i, vtx a' k i = vtx a k i) /\
      (forall k, used nt a k -> ~ used nt a' k ->
         exists m, m < k /\ used nt a m /\ used nt a' m /\ same_triangle a k m).
Proof.
  intros nt np iso isoref base gr a Hnp T G.
  destruct (hash_tria_dup nt iso isoref base gr a (t_len _ _ T) (T_pos nt a T) (T_dif nt a T) (T_new nt a T)) with (np := np)
    as (o & E & C); [| exact Hnp | exact (t_nt _ _ T) |].
  { intros e He. apply used_ok in He. apply (geometric_par a (e / 3) (e mod 3)).
    apply G; [exact He | apply idx_in3, in3_mod]. }
  exists o. split; [exact E|]. intros a' ->. destruct C as [C1 C2]. split.
  - intros k Hk. apply used_ok in Hk. destruct (C1 k Hk) as [X V]. split; [apply used_ok; exact X|].
    intros i. unfold vtx. rewrite V. reflexivity.
  - intros k Hk Nk. apply used_ok in Hk. destruct (C2 k Hk) as (m & M1 & M2 & M3 & M4).
    { intros C. apply Nk. apply used_ok. exact C. }
    exists m. split; [exact M1|]. split; [apply used_ok; exact M2|]. split; [apply used_ok; exact M3|].
    intros i Hi. apply idx_in3 in Hi. destruct (M4 i Hi) as (j & Hj & V). exists j. split; [apply idx_in3; exact Hj | exact V].
Qed.

(** Three faces of a tetrahedron, then the fourth one twice: both stay. *)
Definition twice : list stri :=
  [tri3 2 3 4 0; tri3 3 1 4 0; tri3 1 2 4 0; tri3 1 3 2 0; tri3 1 3 2 0].

Theorem duplicates_go_refuted :
  exists nt np a a', 1 <= np /\ triangles nt a /\ (forall k i, used nt a k -> idx i -> geometric a k i) /\
    hash_tria nt false 10 1 (fun _ => 10) np a = Ret (Some a') /\
    exists k m, used nt a' k /\ used nt a' m /\ k <> m /\ same_triangle a' k m.
Proof.
  exists 5, 4, (mesh3 twice).
  assert (X : match hash_tria 5 false 10 1 (fun _ => 10) 4 (mesh3 twice) with
              | Ret (Some a') => (0 <? s_v (aget a' 4) 0) && (0 <? s_v (aget a' 5) 0) &&
                   subset_b (aget a' 4) (aget a' 5)
              | _ => false end = true) by (vm_compute; reflexivity).
  destruct (hash_tria 5 false 10 1 (fun _ => 10) 4 (mesh3 twice)) as [[a'|]|]; try discriminate X.
  exists a'. destruct (mesh3_good twice eq_refl) as [T G].
  split; [lia|]. split; [exact T|]. split; [exact G|]. split; [reflexivity|].
  apply andb_prop in X. destruct X as [X X3]. apply andb_prop in X. destruct X as [X1 X2].
  apply Z.ltb_lt in X1, X2. exists 4, 5. split; [split; [lia | exact X1]|]. split; [split; [lia | exact X2]|].
  split; [lia|]. intros i Hi. unfold subset_b in X3. rewrite forallb_forall in X3.
  specialize (X3 i (idxs_all i Hi)). apply existsb_exists in X3. destruct X3 as (j & Hj & V).
  exists j. split; [unfold idx, idxs in *; cbn in Hj; lia | apply Z.eqb_eq; exact V].
Qed.

(** Two triangles on the edge 2-3, the second one given twice: the copy
    disappears, but the edge of the two that stay is now non-manifold. *)
Definition copied : list stri := [tri3 2 3 4 0; tri3 1 3 2 0; tri3 1 3 2 0].

Theorem only_crowded_marked_refuted :
  exists nt np a a', 1 <= np /\ triangles nt a /\ (forall k i n, used nt a k -> idx i -> bit (tagof a k i) n = false) /\
    hash_tria nt false 10 1 (fun _ => 10) np a = Ret (Some a') /\
    (exists k i, used nt a' k /\ idx i /\ bit (tagof a' k i) 3 = true) /\
    forall k i, used nt a' k -> ~ crowded nt a' k i.
Proof.
  exists 3, 4, (mesh3 copied).
  assert (X : match hash_tria 3 false 10 1 (fun _ => 10) 4 (mesh3 copied) with
              | Ret (Some a') => (0 <? s_v (aget a' 1) 0) && (s_v (aget a' 3) 0 =? 0) && bit (s_tag (aget a' 1) 2) 3
              | _ => false end = true) by (vm_compute; reflexivity).
  destruct (hash_tria 3 false 10 1 (fun _ => 10) 4 (mesh3 copied)) as [[a'|]|]; try discriminate X.
  exists a'. destruct (mesh3_good copied eq_refl) as [T G].
  split; [lia|]. split; [exact T|]. split.
  { intros k i n Hk Hi. apply (mesh3_used copied) in Hk. unfold tagof.
    destruct Hk as [<- | [<- | [<- | []]]]; apply Z.testbit_0_l. }
  split; [reflexivity|].
  apply andb_prop in X. destruct X as [X X3]. apply andb_prop in X. destruct X as [X1 X2].
  apply Z.ltb_lt in X1. apply Z.eqb_eq in X2. split.
  - exists 1, 2. split; [split; [lia | exact X1]|]. split; [unfold idx; lia | exact X3].
  - intros k i [Rk Uk] (k1 & i1 & k2 & i2 & ([R1 U1] & _) & ([R2 U2] & _) & N1 & N2 & N3 & _).
    assert (k <> 3) by (intros ->; lia). assert (k1 <> 3) by (intros ->; lia).
    assert (k2 <> 3) by (intros ->; lia). clear - Rk R1 R2 N1 N2 N3 H H0 H1. lia.
Qed.

(** The same with the reference of the level set on the copy: it takes the place
    of its twin on the edge of the first triangle, then disappears, and the first
    triangle stays glued to it. *)
Definition copied_iso : list stri := [tri3 2 3 4 0; tri3 1 3 2 0; tri3 1 3 2 10].

Theorem glued_to_used_refuted :
  exists nt np isoref a a', 1 <= np /\ triangles nt a /\
    (forall k i, used nt a k -> idx i -> geometric a k i) /\
    hash_tria nt true isoref 1 (fun _ => 10) np a = Ret (Some a') /\
    exists k i kk ii, used nt a' k /\ idx i /\ idx ii /\ glued a' k i kk ii /\ ~ used nt a' kk.
Proof.
  exists 3, 4, 10, (mesh3 copied_iso).
  assert (X : match hash_tria 3 true 10 1 (fun _ => 10) 4 (mesh3 copied_iso) with
              | Ret (Some a') => (0 <? s_v (aget a' 1) 0) && (s_v (aget a' 3) 0 =? 0) && (s_adj (aget a' 1) 2 =? 9)
              | _ => false end = true) by (vm_compute; reflexivity).
  destruct (hash_tria 3 true 10 1 (fun _ => 10) 4 (mesh3 copied_iso)) as [[a'|]|]; try discriminate X.
  exists a'. destruct (mesh3_good copied_iso eq_refl) as [T G].
  split; [lia|]. split; [exact T|]. split; [exact G|]. split; [reflexivity|].
  apply andb_prop in X. destruct X as [X X3]. apply andb_prop in X. destruct X as [X1 X2].
  apply Z.ltb_lt in X1. apply Z.eqb_eq in X2, X3.
  exists 1, 2, 3, 0. split; [split; [lia | exact X1]|]. split; [unfold idx; lia|]. split; [unfold idx; lia|].
  split; [split; [lia | exact X3]|]. intros [_ C]. lia.
Qed.

Print Assumptions hash_gives_neighbours.
Print Assumptions hash_gives_surface.
Print Assumptions removed_has_twin.
Print Assumptions duplicates_go_refuted.
Print Assumptions only_crowded_marked_refuted.
Print Assumptions glued_to_used_refuted.
