(** [TriHash] with duplicated triangles: what disappears has a twin. *)
From Coq Require Import ZArith List Bool Lia.
From Verif Require Import CBase HashModel HashSpec HashInv HashOps HashCorrect SurfModel SurfProofs TriHash TriHashProofs.
Import ListNotations.
Open Scope Z_scope.

Lemma land_pow x n : 0 <= n -> (Z.land x (2 ^ n) =? 0) = negb (Z.testbit x n).
Proof.
  intros Hn. destruct (Z.testbit x n) eqn:E.
  - apply Z.eqb_neq. intros C0.
    assert (X0 : Z.testbit (Z.land x (2 ^ n)) n = true) by (rewrite Z.land_spec, E, Z.pow2_bits_true by exact Hn; reflexivity).
    rewrite C0, Z.testbit_0_l in X0. discriminate.
  - apply Z.eqb_eq. apply Z.bits_inj'. intros m Hm.
    rewrite Z.land_spec, Z.pow2_bits_eqb, Z.testbit_0_l by exact Hn.
    destruct (Z.eqb_spec n m) as [<- | N]; [rewrite E; reflexivity | apply andb_false_r].
Qed.

Lemma par_only_lor t b : par_only t = false -> Z.testbit b 13 = false -> par_only (Z.lor t b) = false.
Proof.
  unfold par_only, tst. change T_PARBDY with (2 ^ 13). change T_PARBDYBDY with (2 ^ 12).
  rewrite !land_pow by lia. intros H1 H2. rewrite !Z.lor_spec, H2.
  destruct (Z.testbit t 13), (Z.testbit t 12); cbn in *; try discriminate; reflexivity.
Qed.

Section Dup.
Variable nt : Z.
Variable iso : bool.
Variable isoref : Z.
Variable base : Z.
Variable gr : Z -> Z.
Variable a0 : arr stri.

Notation US := (US nt a0).
Notation sE := (sE a0).

Hypothesis Hlen : alen a0 = nt + 1.
Hypothesis Hpos : forall k i, ok nt a0 k -> in3 i -> 0 < s_v (aget a0 k) i.
Hypothesis Hdif : forall k i j, ok nt a0 k -> in3 i -> in3 j -> i <> j -> s_v (aget a0 k) i <> s_v (aget a0 k) j.
Hypothesis Hz : forall e, US e -> sa a0 e = 0.
Hypothesis Hpar : forall e, US e -> par_only (sg a0 e) = false.

(** The vertices of [k] are among those of [m]. *)
Definition twins (m k : Z) : Prop :=
  forall i, in3 i -> exists j, in3 j /\ s_v (aget a0 k) i = s_v (aget a0 m) j.

Lemma rng e : US e -> 3 <= e < 3 * nt + 3 /\ 0 <= e / 3 < alen a0.
Proof. exact (US_rng nt a0 Hlen e). Qed.

Lemma twin_edge m k e : ok nt a0 m -> ok nt a0 k -> twins m k -> e / 3 = k ->
  exists e', e' / 3 = m /\ US e' /\ sE e' e.
Proof.
  intros Hm Hk T Ee. destruct (T (nx (e mod 3)) (in3_nx _ (in3_mod e))) as (j1 & I1 & V1).
  destruct (T (pv (e mod 3)) (in3_pv _ (in3_mod e))) as (j2 & I2 & V2).
  assert (N : j1 <> j2).
  { intros ->. rewrite <- V1 in V2. revert V2. apply Hdif; [exact Hk | apply in3_pv, in3_mod | apply in3_nx, in3_mod |].
    pose proof (in3_mod e) as I. case3 I; cbv; discriminate. }
  assert (X : exists j0, in3 j0 /\ ((nx j0 = j1 /\ pv j0 = j2) \/ (nx j0 = j2 /\ pv j0 = j1))).
  { unfold in3 in I1, I2. case3 I1; case3 I2; try congruence;
      [exists 2 | exists 1 | exists 2 | exists 0 | exists 1 | exists 0]; unfold in3; cbv; lia. }
  destruct X as (j0 & I0 & X). exists (3 * m + j0).
  assert (D : (3 * m + j0) / 3 = m) by (apply div3; exact I0).
  split; [exact D|]. split; [unfold TriHashProofs.US; rewrite D; exact Hm|].
  unfold TriHashProofs.sE, sP, sQ. rewrite D, mod3 by exact I0. rewrite Ee, V1, V2.
  destruct X as [[-> ->] | [-> ->]]; [apply same_edge_refl|].
  unfold same_edge. rewrite !Z.eqb_refl. cbn. apply orb_true_r.
Qed.

Lemma opposite_twins f s : sE f s -> sO a0 f = sO a0 s -> twins (f / 3) (s / 3).
Proof.
  intros E O i Hi. unfold TriHashProofs.sE, same_edge in E. unfold sP, sQ, sO in *.
  pose proof (in3_mod s) as Is. pose proof (in3_mod f) as If.
  assert (C : i = s mod 3 \/ i = nx (s mod 3) \/ i = pv (s mod 3)).
  { case3 Is; case3 Hi; cbv; tauto. }
  apply orb_prop in E.
  destruct C as [-> | [-> | ->]].
  - exists (f mod 3). auto.
  - destruct E as [E | E]; apply andb_prop in E; destruct E as [E1 E2]; apply Z.eqb_eq in E1, E2.
    + exists (nx (f mod 3)). split; [apply in3_nx; exact If | congruence].
    + exists (pv (f mod 3)). split; [apply in3_pv; exact If | congruence].
  - destruct E as [E | E]; apply andb_prop in E; destruct E as [E1 E2]; apply Z.eqb_eq in E1, E2.
    + exists (pv (f mod 3)). split; [apply in3_pv; exact If | congruence].
    + exists (nx (f mod 3)). split; [apply in3_nx; exact If | congruence].
Qed.

Record N (c : Z) (a : arr stri) (M : emap) : Prop := {
  n_len : alen a = alen a0;
  n_v : forall k, ok nt a k -> ok nt a0 k /\ s_v (aget a k) = s_v (aget a0 k);
  n_dead : forall k, ok nt a0 k -> ~ ok nt a k ->
     3 * k <= c /\ exists m, m < k /\ ok nt a0 m /\ ok nt a m /\ twins m k;
  n_tab : forall x y f, M x y = Some f ->
     US f /\ f < c /\ ok nt a (f / 3) /\ same_edge (sP a0 f) (sQ a0 f) x y = true;
  n_in : forall e, US e -> e < c -> exists f, M (sP a0 e) (sQ a0 e) = Some f /\ f <= e;
  n_adj : forall e, US e -> sa a e = 0 \/ US (sa a e);
  n_tag : forall e, US e -> par_only (sg a e) = false
}.

Lemma ok_same a b k : s_v (aget b k) = s_v (aget a k) -> (ok nt b k <-> ok nt a k).
Proof. intros E. unfold ok, s_eok. rewrite E. tauto. Qed.

(** A change that keeps the vertices. *)
Lemma N_move c a a' M : N c a M -> same a a' ->
  (forall e, US e -> sa a' e = 0 \/ US (sa a' e)) ->
  (forall e, US e -> par_only (sg a' e) = false) -> N c a' M.
Proof.
  intros [A1 A2 A3 A4 A5 A6 A7] S EA EG.
  assert (O : forall k, ok nt a' k <-> ok nt a k) by (intros k; apply ok_same, S).
  constructor; auto.
  - rewrite (m_len _ _ S). exact A1.
  - intros k Hk. rewrite (m_v _ _ S). apply A2, O, Hk.
  - intros k H1 H2. destruct (A3 k H1) as (B & m & B1 & B2 & B3 & B4); [intros C; apply H2, O, C|].
    split; [exact B|]. exists m. sp; auto. apply O. exact B3.
  - intros x y f H. destruct (A4 x y f H) as (B1 & B2 & B3 & B4). sp; auto. apply O, B3.
Qed.

(** One more slot, already in the table. *)
Lemma N_next c a M : N c a M -> (US c -> exists f, M (sP a0 c) (sQ a0 c) = Some f /\ f <= c) -> N (c + 1) a M.
Proof.
  intros [A1 A2 A3 A4 A5 A6 A7] H. constructor; auto.
  - intros k H1 H2. destruct (A3 k H1 H2) as (B & C). split; [lia | exact C].
  - intros x y f Hf. destruct (A4 x y f Hf) as (B1 & B2 & B3 & B4). sp; auto. lia.
  - intros e He Hc. destruct (Z.eq_dec e c) as [-> | Ne]; [apply H, He | apply A5; [exact He | lia]].
Qed.

Lemma meet_dup c a M h f :
  N c a M -> erep h M -> US c -> ok nt a (c / 3) -> M (sP a0 c) (sQ a0 c) = Some f ->
  exists a', meet iso isoref (c / 3) (c mod 3) f a = Ret a' /\ N (c + 1) a' M.
Proof.
  intros HN R Hc Hl E. destruct HN as [A1 A2 A3 A4 A5 A6 A7]. pose proof (Build_N c a M A1 A2 A3 A4 A5 A6 A7) as HN.
  destruct (A4 _ _ _ E) as (Uf & Lf & Of & Sf). fold (sE f c) in Sf.
  destruct (rng c Hc) as [Rc Lc]. destruct (rng f Uf) as [Rf Lnf].
  destruct (A2 _ Hl) as [_ Vc]. destruct (A2 _ Of) as [_ Vf].
  assert (Fin : forall a', N c a' M -> N (c + 1) a' M).
  { intros a' H. apply N_next; [exact H|]. intros _. exists f. split; [exact E | lia]. }
  unfold meet. rewrite (@rd_ok _ a (c / 3)) by (rewrite A1; exact Lc). cbn [bind].
  rewrite (@rd_ok _ a (f / 3)) by (rewrite A1; exact Lnf). cbn [bind].
  rewrite Vc, Vf. fold (sO a0 f) (sO a0 c).
  destruct (Z.eqb_spec (sO a0 f) (sO a0 c)) as [Q | _].
  - (* a duplicate *)
    rewrite chg_ok by (rewrite A1; exact Lc).
    eexists. split; [reflexivity|]. apply Fin.
    remember (c / 3) as k eqn:Ek.
    assert (Nk : f / 3 <> k).
    { intros C. assert (f mod 3 = c mod 3).
      { destruct (Z.eq_dec (f mod 3) (c mod 3)) as [X | X]; [exact X|]. exfalso. revert Q. unfold sO. rewrite C, <- Ek.
        apply Hdif; [exact (proj1 (A2 _ Hl)) | apply in3_mod | apply in3_mod | exact X]. }
      pose proof (slot_eq f). pose proof (slot_eq c). lia. }
    assert (Mk : f / 3 < k).
    { pose proof (slot_eq f). pose proof (slot_eq c). pose proof (in3_mod f) as I1. pose proof (in3_mod c) as I2.
      unfold in3 in I1, I2. lia. }
    assert (Tw : twins (f / 3) k) by (rewrite Ek; apply opposite_twins; assumption).
    assert (Lt : forall e e', e / 3 < e' / 3 -> e < e').
    { intros e e' H. pose proof (slot_eq e). pose proof (slot_eq e'). pose proof (in3_mod e) as I1.
      pose proof (in3_mod e') as I2. unfold in3 in I1, I2. lia. }
    assert (Own : forall x y f', M x y = Some f' -> f' / 3 <> k).
    { intros x y f' H C. destruct (A4 _ _ _ H) as (B1 & B2 & B3 & B4).
      destruct (twin_edge (f / 3) k f' (proj1 (A2 _ Of)) (proj1 (A2 _ Hl)) Tw C) as (e' & D1 & D2 & D3).
      assert (Le : e' < f') by (apply Lt; lia).
      destruct (A5 e' D2) as (f2 & D4 & D5); [lia|].
      rewrite (erep_sym _ _ _ _ _ _ R D3), (erep_sym _ _ _ _ _ _ R B4), H in D4.
      inversion D4. lia. }
    set (b := mkArr (alen a) (upd (aget a) k (kill (aget a k)))).
    assert (Vk : forall k', k' <> k -> aget b k' = aget a k').
    { intros k' H. unfold b. cbn [aget]. apply upd_other. exact H. }
    assert (Dk : ~ ok nt b k).
    { intros [_ C]. unfold b in C. cbn [aget] in C. rewrite upd_same in C. unfold s_eok, kill in C. cbn [s_v] in C.
      rewrite upd_same in C. discriminate. }
    assert (Ob : forall k', ok nt b k' <-> ok nt a k' /\ k' <> k).
    { intros k'. destruct (Z.eq_dec k' k) as [-> | Ne]; [tauto|].
      unfold ok. rewrite (Vk k' Ne). tauto. }
    assert (Sab : forall e, sa b e = sa a e).
    { intros e. unfold sa, b. cbn [aget]. unfold upd. destruct (Z.eqb_spec (e / 3) k) as [-> | ]; reflexivity. }
    assert (Sgb : forall e, sg b e = sg a e).
    { intros e. unfold sg, b. cbn [aget]. unfold upd. destruct (Z.eqb_spec (e / 3) k) as [-> | ]; reflexivity. }
    constructor.
    + exact A1.
    + intros k' Hk'. apply Ob in Hk'. destruct Hk' as [H1 H2]. rewrite (Vk k' H2). apply A2, H1.
    + intros k' H1 H2. destruct (Z.eq_dec k' k) as [-> | Ne].
      * split; [pose proof (slot_eq c); pose proof (in3_mod c) as I2; unfold in3 in I2; lia|].
        exists (f / 3). sp; [exact Mk | exact (proj1 (A2 _ Of)) | apply Ob; auto | exact Tw].
      * destruct (A3 k' H1) as (B & m & B1 & B2 & B3 & B4); [intros C; apply H2, Ob; auto|].
        split; [exact B|]. exists m. sp; auto. apply Ob. split; [exact B3|].
        intros ->. pose proof (slot_eq c). pose proof (in3_mod c) as I2. unfold in3 in I2. lia.
    + intros x y f' H. destruct (A4 _ _ _ H) as (B1 & B2 & B3 & B4). sp; auto.
      apply Ob. split; [exact B3 | exact (Own _ _ _ H)].
    + exact A5.
    + intros e He. rewrite Sab. apply A6, He.
    + intros e He. rewrite Sgb. apply A7, He.
  - fold (sa a f) (sa a c). rewrite <- (slot_eq c), <- (slot_eq f).
    destruct (Z.eqb_spec (sa a f) 0) as [Zf | Nz].
    + destruct (chg_adj_s a c f) as (a1 & E1 & S1 & P1 & G1); [rewrite A1; exact Lc|].
      rewrite E1. cbn [bind].
      destruct (chg_adj_s a1 f c) as (a2 & E2 & S2 & P2 & G2); [rewrite (m_len _ _ S1), A1; exact Lnf|].
      exists a2. split; [exact E2|]. apply Fin. apply (N_move c a); [exact HN | eauto using same_trans | |].
      * intros e He. rewrite P2, P1. destruct (e =? f); [right; exact Hc|].
        destruct (e =? c); [right; exact Uf | apply A6, He].
      * intros e He. rewrite G2, G1. apply A7, He.
    + destruct (Z.eqb_spec (sa a c) f) as [Q1 | _].
      { exists a. split; [reflexivity | apply Fin; exact HN]. }
      remember (sa a f) as g eqn:Eg.
      assert (Ug : US g) by (destruct (A6 f Uf) as [Q1 | Q1]; congruence).
      destruct (rng g Ug) as [Rg Lg].
      assert (X : exists a1,
        (if iso && ((s_ref (aget a (c / 3)) =? isoref) || (s_ref (aget a (c / 3)) <? 0)) then
            a <- chg a (g / 3) (set_adj (g mod 3) 0) ;;
            a <- chg a (c / 3) (set_adj (c mod 3) f) ;;
            chg a (f / 3) (set_adj (f mod 3) c)
          else Ret a) = Ret a1 /\ same a a1 /\ (forall e, sg a1 e = sg a e) /\
        (forall e, US e -> sa a1 e = 0 \/ US (sa a1 e))).
      { destruct (iso && _).
        - destruct (chg_adj_s a g 0) as (a1 & E1 & S1 & P1 & G1); [rewrite A1; exact Lg|]. rewrite E1. cbn [bind].
          destruct (chg_adj_s a1 c f) as (a2 & E2 & S2 & P2 & G2); [rewrite (m_len _ _ S1), A1; exact Lc|].
          rewrite E2. cbn [bind].
          destruct (chg_adj_s a2 f c) as (a3 & E3 & S3 & P3 & G3);
            [rewrite (m_len _ _ S2), (m_len _ _ S1), A1; exact Lnf|].
          exists a3. split; [exact E3|]. split; [eauto using same_trans|].
          split; intros e; [rewrite G3, G2, G1; reflexivity|]. intros He. rewrite P3, P2, P1.
          destruct (e =? f); [right; exact Hc|]. destruct (e =? c); [right; exact Uf|].
          destruct (e =? g); [left; reflexivity | apply A6, He].
        - exists a. split; [reflexivity|]. split; [apply same_refl|]. split; [reflexivity | exact A6]. }
      destruct X as (a1 & E1 & S1 & G1 & P1). rewrite E1. cbn [bind].
      destruct (chg_tag_s a1 c T_NOM) as (a2 & E2 & S2 & G2 & P2); [rewrite (m_len _ _ S1), A1; exact Lc|].
      rewrite E2. cbn [bind].
      destruct (chg_tag_s a2 f T_NOM) as (a3 & E3 & S3 & G3 & P3);
        [rewrite (m_len _ _ S2), (m_len _ _ S1), A1; exact Lnf|].
      rewrite E3. cbn [bind].
      destruct (chg_tag_s a3 g T_NOM) as (a4 & E4 & S4 & G4 & P4);
        [rewrite (m_len _ _ S3), (m_len _ _ S2), (m_len _ _ S1), A1; exact Lg|].
      exists a4. split; [exact E4|]. apply Fin. apply (N_move c a); [exact HN | eauto 6 using same_trans | |].
      * intros e He. rewrite P4, P3, P2. apply P1, He.
      * intros e He. rewrite G4, G3, G2, G1.
        assert (Y : par_only (sg a e) = false) by (apply A7, He).
        destruct (e =? g), (e =? f), (e =? c); repeat (apply par_only_lor; [|reflexivity]); exact Y.
Qed.

Lemma hedge_dup c a M h k i :
  N c a M -> erep h M -> ok nt a0 k -> in3 i -> c = 3 * k + i ->
  exists o, hedge iso isoref gr k i (Some (a, h)) = Ret o /\
    match o with
    | None => True
    | Some (a', h') => exists M', erep h' M' /\ N (c + 1) a' M'
    end.
Proof.
  intros HN R Hk Hi Ec.
  assert (Dk : c / 3 = k) by (rewrite Ec; apply div3; exact Hi).
  assert (Di : c mod 3 = i) by (rewrite Ec; apply mod3; exact Hi).
  assert (Uc : US c) by (unfold TriHashProofs.US; rewrite Dk; exact Hk).
  destruct (rng c Uc) as [Rc Lc]. rewrite Dk in Lc.
  pose proof HN as HN'. destruct HN' as [A1 A2 A3 A4 A5 A6 A7].
  unfold hedge. rewrite (@rd_ok _ a k) by (rewrite A1; exact Lc). cbn [bind].
  destruct (s_eok (aget a k)) eqn:Ek; cbn [negb].
  - assert (Ok : ok nt a k) by (split; [apply Hk | exact Ek]).
    destruct (A2 k Ok) as [_ Vk].
    assert (G : par_only (s_tag (aget a k) i) = false).
    { pose proof (A7 c Uc) as Y. unfold sg in Y. rewrite Dk, Di in Y. exact Y. }
    rewrite G, Vk.
    replace (s_v (aget a0 k) (nx i)) with (sP a0 c) by (unfold sP; rewrite Dk, Di; reflexivity).
    replace (s_v (aget a0 k) (pv i)) with (sQ a0 c) by (unfold sQ; rewrite Dk, Di; reflexivity).
    assert (PP : 0 < sP a0 c) by (apply Hpos; [exact Uc | apply in3_nx, in3_mod]).
    assert (PQ : 0 < sQ a0 c) by (apply Hpos; [exact Uc | apply in3_pv, in3_mod]).
    rewrite (lookup h M _ _ R PP PQ). cbn [bind].
    destruct (M (sP a0 c) (sQ a0 c)) as [f|] eqn:E.
    + destruct (A4 _ _ _ E) as (Uf & _). destruct (rng f Uf) as [Rf _]. replace (f =? 0) with false by lia.
      destruct (meet_dup c a M h f HN R Uc) as (a' & E1 & N1); [rewrite Dk; exact Ok | exact E |].
      rewrite Dk, Di in E1. rewrite E1. cbn [bind]. eexists. split; [reflexivity|]. cbn beta iota. eauto.
    + cbn [Z.eqb]. destruct (insert h M _ _ (3 * k + i) (gr (3 * k + i)) R PP PQ E) as (r & h' & E1 & C).
      rewrite E1. cbn [bind]. destruct C as [[-> C] | [-> C]].
      * eexists. split; [reflexivity | exact I].
      * eexists. split; [reflexivity|]. cbn beta iota. eexists. split; [exact C|]. rewrite <- Ec.
        assert (X : forall e, US e -> e < c -> ~ sE c e).
        { intros e He Hc C1. destruct (A5 e He Hc) as (f & Hf & _).
          rewrite (erep_sym _ _ _ _ _ _ R C1) in E. congruence. }
        constructor; auto.
        -- intros k' H1 H2. destruct (A3 k' H1 H2) as (B & C1). split; [lia | exact C1].
        -- intros x y f. unfold eput. destruct (same_edge (sP a0 c) (sQ a0 c) x y) eqn:Q.
           ++ intros H. inversion H; subst f. sp; auto. lia. rewrite Dk. exact Ok.
           ++ intros H. destruct (A4 _ _ _ H) as (B1 & B2 & B3 & B4). sp; auto. lia.
        -- intros e He Hc. unfold eput. destruct (same_edge (sP a0 c) (sQ a0 c) (sP a0 e) (sQ a0 e)) eqn:Q.
           ++ destruct (Z.eq_dec e c) as [-> | Ne]; [exists c; split; [reflexivity | lia]|].
              exfalso. apply (X e He); [lia | exact Q].
           ++ destruct (Z.eq_dec e c) as [-> | Ne]; [rewrite same_edge_refl in Q; discriminate|].
              apply A5; [exact He | lia].
  - eexists. split; [reflexivity|]. cbn beta iota. exists M. split; [exact R|].
    apply N_next; [exact HN|]. intros _.
    destruct (A3 k Hk) as (_ & m & B1 & B2 & B3 & B4).
    { intros [_ C]. congruence. }
    destruct (twin_edge m k c B2 Hk B4 Dk) as (e' & D1 & D2 & D3).
    assert (Le : e' < c).
    { pose proof (slot_eq e'). pose proof (slot_eq c). pose proof (in3_mod e') as I1.
      pose proof (in3_mod c) as I2. unfold in3 in I1, I2. lia. }
    destruct (A5 e' D2 Le) as (f & F1 & F2). exists f.
    rewrite <- (erep_sym _ _ _ _ _ _ R D3). split; [exact F1 | lia].
Qed.

Definition L (k : Z) (o : option (arr stri * htab)) : Prop :=
  match o with
  | None => True
  | Some (a, h) => exists M, erep h M /\ N (3 * k) a M
  end.

Lemma htri_dup k o : 1 <= k <= nt -> L k o ->
  exists o', htri iso isoref base gr k o = Ret o' /\ L (k + 1) o'.
Proof.
  intros Hk H. destruct o as [[a h]|]; cbn [htri].
  2: { exists None. split; [reflexivity | exact I]. }
  destruct H as (M & R & HN). pose proof HN as HN'. destruct HN' as [A1 A2 A3 A4 A5 A6 A7].
  rewrite rd_ok by (rewrite A1, Hlen; lia). cbn [bind].
  destruct (s_eok (aget a k)) eqn:Ek; cbn [negb].
  - assert (Ok : ok nt a k) by (split; [exact Hk | exact Ek]). destruct (A2 k Ok) as [Hok _].
    rewrite chg_ok by (rewrite A1, Hlen; lia). cbn [bind].
    remember (mkArr (alen a) (upd (aget a) k (reset base (aget a k)))) as a1 eqn:Ea1.
    assert (W : forall k', s_v (aget a1 k') = s_v (aget a k') /\
       s_adj (aget a1 k') = s_adj (aget a k') /\ s_tag (aget a1 k') = s_tag (aget a k')).
    { intros k'. rewrite Ea1. cbn [aget]. unfold upd. destruct (Z.eqb_spec k' k) as [-> | Ne]; sp; reflexivity. }
    assert (N1 : N (3 * k) a1 M).
    { assert (O : forall k, ok nt a1 k <-> ok nt a k) by (intros k'; apply ok_same, W).
      constructor; auto.
      - rewrite Ea1. exact A1.
      - intros k' Hk'. destruct (W k') as (-> & _). apply A2, O, Hk'.
      - intros k' H1 H2. destruct (A3 k' H1) as (B & m & B1 & B2 & B3 & B4); [intros C; apply H2, O, C|].
        split; [exact B|]. exists m. sp; auto. apply O. exact B3.
      - intros x y f H. destruct (A4 x y f H) as (B1 & B2 & B3 & B4). sp; auto. apply O, B3.
      - intros e He. unfold sa. destruct (W (e / 3)) as (_ & -> & _). apply A6, He.
      - intros e He. unfold sg. destruct (W (e / 3)) as (_ & _ & ->). apply A7, He. }
    assert (N3 : forall i, hedge iso isoref gr k i None = Ret None) by reflexivity.
    destruct (hedge_dup (3 * k) a1 M h k 0 N1 R Hok) as (o1 & E1 & C1); [left; reflexivity | lia |].
    rewrite E1. cbn [bind]. destruct o1 as [[a2 h2]|].
    2: { rewrite N3. cbn [bind]. rewrite N3. exists None. split; [reflexivity | exact I]. }
    destruct C1 as (M2 & R2 & J2).
    destruct (hedge_dup (3 * k + 1) a2 M2 h2 k 1 J2 R2 Hok) as (o2 & E2 & C2); [right; left; reflexivity | lia |].
    rewrite E2. cbn [bind]. destruct o2 as [[a3 h3]|].
    2: { rewrite N3. exists None. split; [reflexivity | exact I]. }
    destruct C2 as (M3 & R3 & J3).
    destruct (hedge_dup (3 * k + 1 + 1) a3 M3 h3 k 2 J3 R3 Hok) as (o3 & E3 & C3); [right; right; reflexivity | lia |].
    rewrite E3. exists o3. split; [reflexivity|]. destruct o3 as [[a4 h4]|]; [|exact I].
    destruct C3 as (M4 & R4 & J4).
    exists M4. split; [exact R4|]. replace (3 * (k + 1)) with (3 * k + 1 + 1 + 1) by lia. exact J4.
  - exists (Some (a, h)). split; [reflexivity|]. exists M. split; [exact R|].
    constructor; auto.
    + intros k' H1 H2. destruct (A3 k' H1 H2) as (B & C1). split; [lia | exact C1].
    + intros x y f Hf. destruct (A4 x y f Hf) as (B1 & B2 & B3 & B4). sp; auto. lia.
    + intros e He Hc. destruct (Z_lt_dec e (3 * k)) as [Q | Q]; [apply A5; assumption|].
      assert (De : e / 3 = k).
      { pose proof (slot_eq e). pose proof (in3_mod e) as I1. unfold in3 in I1. lia. }
      assert (Hok : ok nt a0 k) by (rewrite <- De; exact He).
      destruct (A3 k Hok) as (B0 & m & B1 & B2 & B3 & B4).
      { intros [_ C]. congruence. }
      destruct (twin_edge m k e B2 Hok B4 De) as (e' & D1 & D2 & D3).
      assert (Le : e' < 3 * k).
      { pose proof (slot_eq e'). pose proof (in3_mod e') as I1. unfold in3 in I1. lia. }
      destruct (A5 e' D2 Le) as (f & F1 & F2). exists f.
      rewrite <- (erep_sym _ _ _ _ _ _ R D3). split; [exact F1 | lia].
Qed.

Theorem hash_tria_dup np : 1 <= np -> 0 <= nt ->
  exists o, hash_tria nt iso isoref base gr np a0 = Ret o /\
  match o with
  | None => True
  | Some a => (forall k, ok nt a k -> ok nt a0 k /\ s_v (aget a k) = s_v (aget a0 k)) /\
     forall k, ok nt a0 k -> ~ ok nt a k -> exists m, m < k /\ ok nt a0 m /\ ok nt a m /\ twins m k
  end.
Proof.
  intros Hnp Hnt. destruct (new_rep (np - 1) (371 * np / 100 - 1)) as (h & E & R & _).
  { pose proof (Z.div_le_lower_bound (371 * np) 100 np). lia. }
  unfold hash_tria, htable. rewrite E. cbn [bind].
  destruct (@for_range_inv _ L (htri iso isoref base gr) 1 nt (Some (a0, h))) as (o & E1 & C1); [lia | | |].
  - exists emap0. split; [exact R|]. constructor; auto.
    + intros k H1 H2. contradiction.
    + intros x y f H. discriminate H.
    + intros e He Hc. apply rng in He. lia.
  - intros k o Hk. apply htri_dup. lia.
  - rewrite E1. cbn [bind]. destruct o as [[a h']|]; [|exists None; split; [reflexivity | exact I]].
    destruct C1 as (M & _ & HN). destruct HN as [A1 A2 A3 A4 A5 A6 A7].
    destruct (@for_range_inv _ (fun _ b => b = a) (ptri h') 1 nt a) as (b & E2 & C2); [lia | reflexivity | |].
    + intros k b Hk ->. exists a. split; [|reflexivity]. unfold ptri.
      rewrite rd_ok by (rewrite A1, Hlen; lia). cbn [bind].
      destruct (s_eok (aget a k)) eqn:Ek; cbn [negb]; [|reflexivity].
      assert (Ok : ok nt a k) by (split; [lia | exact Ek]). destruct (A2 k Ok) as [Hok _].
      assert (X : forall i, in3 i -> pedge h' k i a = Ret a).
      { intros i Hi. unfold pedge. rewrite rd_ok by (rewrite A1, Hlen; lia). cbn [bind].
        assert (Uc : US (3 * k + i)) by (unfold TriHashProofs.US; rewrite div3 by exact Hi; exact Hok).
        pose proof (A7 _ Uc) as Y. unfold sg in Y. rewrite div3, mod3 in Y by exact Hi. rewrite Y. reflexivity. }
      rewrite X by (left; reflexivity). cbn [bind]. rewrite X by (right; left; reflexivity). cbn [bind].
      apply X. right; right; reflexivity.
    + rewrite E2. cbn [bind]. exists (Some b). split; [reflexivity|]. subst b.
      split; [exact A2|]. intros k H1 H2. exact (proj2 (A3 k H1 H2)).
Qed.

End Dup.
