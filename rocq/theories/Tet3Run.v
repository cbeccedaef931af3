(** The collapse as a whole. *)
From Coq Require Import ZArith List Lia Bool.
From Verif Require Import CBase Tet3Model Tet3Spec Tet3Proofs Tet3Ball Tet3Shell Tet3Pool Tet3Col Tet3Out.
Import ListNotations.
Open Scope Z_scope.

(** ** The flags do not matter *)
Section Flags.
Variable m m2 : mesh.
Hypothesis BF : but_flags m m2.
Lemma bf_vtx x y : vtx m2 x y = vtx m x y.
Proof. destruct BF as (_ & F & _). destruct (F x) as [Q _]. unfold vtx. rewrite Q. reflexivity. Qed.
Lemma bf_nb x y : nb m2 x y = nb m x y.
Proof. destruct BF as (_ & _ & E & _). unfold nb. rewrite E. reflexivity. Qed.
Lemma bf_live x : live m2 x <-> live m x.
Proof. destruct BF as (E & F & _). destruct (F x) as [Q _]. unfold live. rewrite E, Q. reflexivity. Qed.
Lemma bf_has k x : has m2 k x <-> has m k x.
Proof. split; intros (a & La & E); exists a; split; auto; rewrite <- E; [symmetry|]; apply bf_vtx. Qed.
Lemma bf_on k i x : on_face m2 k i x <-> on_face m k i x.
Proof. split; intros (a & La & N & E); exists a; repeat split; auto; rewrite <- E; [symmetry|]; apply bf_vtx. Qed.
Lemma bf_same k i l j : same_face m2 k i l j <-> same_face m k i l j.
Proof. unfold same_face. split; intros H p; specialize (H p); rewrite !bf_on in *; exact H. Qed.
Lemma bf_vo : vertices_ok m -> vertices_ok m2.
Proof.
  intros V k L. apply bf_live in L. destruct (V k L) as [P J]. split; [intros a La; rewrite bf_vtx; auto|].
  intros a b La Lb. rewrite !bf_vtx. apply J; assumption.
Qed.
Lemma bf_adj : adjacent m -> adjacent m2.
Proof.
  intros A k i L Li. apply bf_live in L. destruct (A k i L Li) as [[H U]|(l & j & Ll & Lj & E & N & S & U)].
  - left. rewrite bf_nb. split; [exact H|]. intros l j Ll Lj S. apply bf_live in Ll. apply bf_same in S. apply U; assumption.
  - right. exists l, j. rewrite bf_nb. repeat split; auto; try (apply bf_live in Ll; apply Ll); try (apply bf_live; exact Ll).
    + apply (proj2 (bf_same k i l j) S).
    + apply (proj2 (bf_same k i l j) S).
    + intros l' j' Ll' Lj' S'. apply bf_live in Ll'. apply bf_same in S'. apply U; assumption.
Qed.
Lemma bf_tab : tables_ok m -> tables_ok m2.
Proof.
  intros (B1 & B2 & B3 & B4 & B5 & (fl & B6 & Fu) & B7 & NEQ). destruct BF as (E1 & _ & E2 & _ & E3 & E4 & E5 & _ & E6 & _).
  unfold tables_ok. rewrite E1, E2, E3, E4, E5, E6, bf_vtx. repeat split; auto; try apply B3.
  - intros k L. apply B5, bf_live, L.
  - exists fl. split; [apply (chain_frame m m2); [lia|intros x; apply bf_live|exact B6|intros x _; apply bf_vtx]|]. apply (full_frame m m2); [exact E5|intros x; apply bf_live|exact Fu].
  - destruct NEQ as [Q|Q]; [left; exact Q|right; apply bf_live, Q].
Qed.
Lemma bf_nt : no_twins m -> no_twins m2.
Proof. intros H k l Lk Ll E. apply H; [apply bf_live, Lk|apply bf_live, Ll|]. intros x. rewrite <- !bf_has. apply E. Qed.
Lemma bf_ct p q : contractible m p q -> contractible m2 p q.
Proof.
  intros H k i l j Lk Ll Li Lj P Q O NQ NP. apply bf_live in Lk, Ll. rewrite bf_on in P, Q, NQ, NP.
  destruct (H k i l j Lk Ll Li Lj P Q) as (s & Ls & Hp & Hq & Hx); auto.
  - intros x X1 X2. rewrite <- !bf_on. apply O; assumption.
  - exists s. rewrite bf_live, !bf_has. repeat split; auto; try apply Ls. intros x Ox. apply bf_has, Hx, bf_on, Ox.
Qed.
End Flags.

Lemma twin_merges m p q k n : vertices_ok m -> p <> q -> twin m p q k n -> would_merge m p q k n.
Proof.
  intros V PQ (Lk & Ln & N & Kp & Kq & Nq & i & j & Li & Lj & Ei & Ej & S).
  assert (Np : ~ has m n p).
  { intros (a & La & Ea). destruct (Z.eq_dec a j) as [->|Na]; [congruence|]. apply (not_on m k i V Lk Li). rewrite Ei. apply S. rewrite <- Ea. apply on_other; assumption. }
  assert (HK : forall x, has m k x <-> x = p \/ on_face m k i x).
  { intros x. split.
    - intros (a & La & Ea). destruct (Z.eq_dec a i) as [->|Na]; [left; congruence|right; rewrite <- Ea; apply on_other; assumption].
    - intros [->|O]; [exact Kp|apply (on_has _ _ _ _ O)]. }
  assert (HN : forall x, has m n x <-> x = q \/ on_face m k i x).
  { intros x. rewrite (S x). split.
    - intros (a & La & Ea). destruct (Z.eq_dec a j) as [->|Na]; [left; congruence|right; rewrite <- Ea; apply on_other; assumption].
    - intros [->|O]; [exact Nq|apply (on_has _ _ _ _ O)]. }
  split; [exact Lk|]. split; [exact Ln|]. split; [exact N|]. split; [tauto|]. split; [tauto|].
  assert (R : ren p q p = ren p q q) by (unfold ren; rewrite Z.eqb_refl; destruct (q =? p); reflexivity).
  intros x. split; intros (y & Hy & ->).
  - apply HK in Hy. destruct Hy as [->|O]; [exists q; split; [exact Nq|exact R]|exists y; split; [apply HN; auto|reflexivity]].
  - apply HN in Hy. destruct Hy as [->|O]; [exists p; split; [exact Kp|symmetry; exact R]|exists y; split; [apply HK; auto|reflexivity]].
Qed.

(** What the mesh becomes. *)
Definition collapsed (m m' : mesh) (p q : Z) : Prop :=
  (forall x, live m' x <-> live m x /\ ~ (has m x p /\ has m x q)) /\
  (forall x y, live m' x -> loc y -> vtx m' x y = ren p q (vtx m x y)) /\
  (forall x, live m' x -> qref (aget (m_tet m') x) = qref (aget (m_tet m) x) /\ qtag (aget (m_tet m') x) = qtag (aget (m_tet m) x) /\
     qxt (aget (m_tet m') x) = qxt (aget (m_tet m) x)).

Lemma colver_ok m p q l start ip iq r : conforming m -> no_twins m -> contractible m p q ->
  live m start -> loc ip -> loc iq -> ip <> iq -> vtx m start ip = p -> vtx m start iq = q -> l = 4 * start + ip :: r ->
  (forall e, In e l -> exists k i, e = 4 * k + i /\ live m k /\ loc i /\ vtx m k i = p) -> NoDup (els l) ->
  (forall k, live m k -> has m k p -> In k (els l)) ->
  (colver m l iq = Ret (0, m) /\ exists k n, would_merge m p q k n) \/
  (exists m', colver m l iq = Ret (p, m') /\ conforming m' /\ no_twins m' /\ collapsed m m' p q /\ m_xt m' = m_xt m).
Proof.
  intros (T & VO & A) NT CT Ls Lip Liq Nipq Ep Eq El HE HN HA.
  assert (PQ : p <> q) by (intros E; destruct (VO start Ls) as [_ J]; apply Nipq, J; try assumption; congruence).
  assert (Q0 : 0 < q) by (rewrite <- Eq; apply VO; assumption).
  assert (P0 : 0 < p) by (rewrite <- Ep; apply VO; assumption).
  assert (CV : colver m l iq = (list <- col_mark m q l ;; ex <- col_exists m q list ;;
    if ex : bool then Ret (0, m) else ' (r, m) <- col_shell m q list ;; if r <? 0 then Ret (-1, m) else m <- col_move m q list ;; Ret (p, m))).
  { rewrite El. cbn [colver]. rewrite dec_div, dec_mod by exact Lip. rewrite get_t_ok by (apply live_intab; assumption). cbn [bind].
    fold (vtx m start iq). fold (vtx m start ip). rewrite Ep, Eq. reflexivity. }
  rewrite CV. clear CV. rewrite (col_mark_ok m T p q PQ l HE l (incl_refl l)). cbn [bind].
  destruct (col_exists_ok m T VO A p q l HE HA l (incl_refl l)) as (b & R & S). rewrite R. cbn [bind].
  destruct b.
  - left. split; [reflexivity|]. destruct (proj1 S eq_refl) as (k & n & _ & Tw). exists k, n. apply twin_merges; assumption.
  - right.
    assert (TW : forall k n, ~ twin m p q k n).
    { intros k n Tw. assert (X : false = true); [|discriminate]. apply S. exists k, n. split; [|exact Tw]. destruct Tw as (Lk & _ & _ & Kp & _). apply HA; assumption. }
    assert (I0 : INVS m p q m []).
    { split; [exact T|]. split; [reflexivity|]. split; [intros k; cbn; tauto|]. split; [reflexivity|]. intros x y _ _. unfold J.
      destruct (negb (nb m x y =? 0)); cbn [andb]; [|reflexivity]. destruct (in_dec Z.eq_dec (nb m x y / 4) []) as [[]|]; reflexivity. }
    destruct (col_shell_ok m VO A NT p q PQ l HE HA l m [] (incl_refl l) HN I0) as (m2 & D & R2 & (T2 & X2 & L2 & F2 & N2) & SD); try (intros x []).
    rewrite R2. cbn [bind]. change (1 <? 0) with false. cbn iota.
    assert (HD : forall x, live m x -> (In x D <-> sh m p q x)).
    { intros x Lx. rewrite SD. split; [intros [[]|[_ H]]; exact H|]. intros H. right. split; [|exact H]. apply HA; [exact Lx|apply H]. }
    assert (L2' : forall x, live m2 x <-> live m x /\ ~ sh m p q x).
    { intros x. rewrite L2. split; intros [Lx H]; (split; [exact Lx|]); rewrite HD in * by exact Lx; exact H. }
    assert (HM : forall e, In e (map (mk m q) l) -> e < 0 \/ (live m2 (e / 4) /\ 0 <= e)).
    { intros e He. apply in_map_iff in He. destruct He as (e0 & Ee & He0). destruct (HE e0 He0) as (k & i & -> & Lk & Li & Ei).
      unfold mk in Ee. rewrite dec_div in Ee by exact Li. pose proof (live_pos m k Lk). pose proof (proj1 (loc_le i) Li).
      destruct (hasb m k q) eqn:HB; subst e; [left; lia|right]. rewrite dec_div by exact Li. split; [|lia]. apply L2'. split; [exact Lk|].
      intros [_ Hq]. apply hasb_ok in Hq. congruence. }
    destruct (col_move_ok m p q l HE HA m2 (map (mk m q) l) T2 Q0 HM) as (m3 & R3 & FR & EA & L3 & FI & V1 & V2). rewrite R3. cbn [bind].
    exists m3. split; [reflexivity|].
    assert (HL : forall x, live m3 x <-> live m x /\ ~ sh m p q x) by (intros x; rewrite L3; apply L2').
    assert (HV : forall x y, live m3 x -> loc y -> vtx m3 x y = ren p q (vtx m x y)).
    { intros x y Lx Ly. pose proof (proj1 (L3 x) Lx) as Lx2. pose proof (proj1 (HL x) Lx) as [Lx0 Nsx].
      assert (E2 : vtx m2 x y = vtx m x y) by (unfold vtx; rewrite F2 by exact Lx2; reflexivity).
      destruct (in_dec Z.eq_dec (4 * x + y) (map (mk m q) l)) as [I|NI].
      - rewrite V1 by (try assumption; apply (live_pos m); assumption). apply in_map_iff in I. destruct I as (e & Ee & Ie).
        destruct (HE e Ie) as (k & i & -> & Lk & Li & Ei). unfold mk in Ee. rewrite dec_div in Ee by exact Li. pose proof (live_pos m k Lk). pose proof (live_pos m x Lx0).
        pose proof (proj1 (loc_le i) Li). pose proof (proj1 (loc_le y) Ly). destruct (hasb m k q); [lia|]. assert (k = x /\ i = y) as [-> ->] by lia. rewrite Ei. unfold ren. rewrite Z.eqb_refl. reflexivity.
      - rewrite V2, E2 by assumption. unfold ren. destruct (Z.eqb_spec (vtx m x y) p) as [E|]; [|reflexivity]. exfalso. apply NI.
        assert (Hxp : has m x p) by (exists y; auto). pose proof (HA x Lx0 Hxp) as I. unfold els in I. apply in_map_iff in I. destruct I as (e & Ee & Ie).
        destruct (HE e Ie) as (k & i & -> & Lk & Li & Ei). rewrite dec_div in Ee by exact Li. subst k.
        assert (i = y) by (destruct (VO x Lx0) as [_ Jn]; apply Jn; try assumption; congruence). subst i.
        apply in_map_iff. exists (4 * x + y). split; [|exact Ie]. unfold mk. rewrite dec_div by exact Ly. destruct (hasb m x q) eqn:HB; [|reflexivity].
        exfalso. apply Nsx. split; [exact Hxp|apply hasb_ok, HB]. }
    assert (HNB : forall x y, live m3 x -> loc y -> nb m3 x y = J m p q D x y).
    { intros x y Lx Ly. unfold nb at 1. rewrite EA. fold (nb m2 x y). apply N2; [apply L3, Lx|exact Ly]. }
    assert (HZ : forall x y, live m3 x -> loc y -> nb m x y = 0 -> nb m3 x y = 0).
    { intros x y Lx Ly E. rewrite HNB by assumption. unfold J. rewrite E. reflexivity. }
    assert (HB : forall x y, live m3 x -> loc y -> nb m x y <> 0 -> ~ sh m p q (nb m x y / 4) -> nb m3 x y = nb m x y).
    { intros x y Lx Ly NZ NS. rewrite HNB by assumption. unfold J. rewrite (proj2 (Z.eqb_neq _ _) NZ). cbn [negb andb].
      destruct (in_dec Z.eq_dec (nb m x y / 4) D) as [I|]; [|reflexivity]. exfalso. apply NS. apply HD; [|exact I].
      apply (nb_dec m x y VO A); [apply HL, Lx|exact Ly|exact NZ]. }
    assert (HC : forall x y, live m3 x -> loc y -> nb m x y <> 0 -> let s := nb m x y / 4 in let j := nb m x y mod 4 in sh m p q s ->
      (vtx m s j = q -> nb m3 x y = nb m s (find m s p)) /\ (vtx m s j = p -> nb m3 x y = nb m s (find m s q))).
    { intros x y Lx Ly NZ s j Ss. rewrite HNB by assumption. unfold J. fold s. fold j. rewrite (proj2 (Z.eqb_neq _ _) NZ). cbn [negb andb].
      destruct (in_dec Z.eq_dec s D) as [I|NI].
      - split; intros E; rewrite E; rewrite ?Z.eqb_refl; [reflexivity|]. rewrite (proj2 (Z.eqb_neq p q) PQ). reflexivity.
      - exfalso. apply NI. apply HD; [|exact Ss]. apply (nb_dec m x y VO A); [apply HL, Lx|exact Ly|exact NZ]. }
    pose proof (V3 m VO p q PQ Q0 CT TW m3 HL HV HB HC) as VO3.
    split; [split; [|split]|].
    + destruct T2 as (B1 & B2 & B3 & B4 & B5 & (fl & B6 & Fu) & B7 & NEQ). destruct FR as (C1 & C2 & _ & C4 & C5 & C6 & _ & _ & C9 & _).
      assert (DEAD : forall x, 1 <= x -> ~ live m2 x -> vtx m3 x 3 = vtx m2 x 3).
      { intros x Px ND. apply V2; [unfold loc; auto|]. intros I. destruct (HM _ I) as [H|[H _]]; [lia|]. rewrite dec_div in H by (unfold loc; auto). contradiction. }
      unfold tables_ok. rewrite C1, C2, C4, C5, C6, C9. repeat split; try assumption; try apply B3.
      * rewrite DEAD; [exact B4|lia|]. intros H. apply B5 in H. lia.
      * intros x Lx. apply B5, L3, Lx.
      * exists fl. split; [|apply (full_frame m2 m3); [exact C6|intros x; apply L3|exact Fu]]. apply (chain_frame m2 m3); [lia|intros x; apply L3|exact B6|].
        intros x Hx. assert (X : 1 <= x /\ ~ live m2 x).
        { clear - B6 Hx. induction B6 as [|k0 l0 B N I Ch IHc]; [destruct Hx|]. destruct Hx as [->|Hx]; [split; [apply B|exact N]|exact (IHc Hx)]. }
        apply DEAD; apply X.
      * destruct NEQ as [Q|Q]; [left; exact Q|right; apply L3, Q].
    + exact VO3.
    + exact (adjacent3 m VO A NT p q PQ Q0 CT TW m3 HL HV HZ HB HC).
    + split; [|split].
      * exact (no_twins3 m VO NT p q PQ TW m3 HL HV).
      * split; [exact HL|]. split; [exact HV|]. intros x Lx. destruct (FI x) as (G1 & G2 & G3 & _). rewrite G1, G2, G3, F2 by (apply L3, Lx). auto.
      * destruct FR as (_ & _ & C3 & _). congruence.
Qed.

Theorem collapse_ok m start ip iq : conforming m -> no_twins m -> flags_ok m ->
  live m start -> loc ip -> loc iq -> ip <> iq ->
  let p := vtx m start ip in let q := vtx m start iq in
  ball_connected m p -> contractible m p q ->
  (exists m', collapse m start ip iq = Ret (0, m') /\ but_flags m m' /\ (too_many m start ip \/ exists k n, would_merge m p q k n)) \/
  (exists m', collapse m start ip iq = Ret (p, m') /\ conforming m' /\ no_twins m' /\ collapsed m m' p q /\ m_xt m' = m_xt m).
Proof.
  intros (T & VO & A) NT FO Ls Lip Liq N p q BC CT. unfold collapse.
  destruct (boulevolp_ok m T VO A start ip Ls Lip FO) as [[R TM]|(m2 & l & R & BF & _ & _ & (r & El) & ND & BL & HE)]; rewrite R; cbn [bind].
  - left. exists m. split; [reflexivity|]. split; [|left; exact TM]. repeat split.
  - assert (HE2 : forall e, In e l -> exists k i, e = 4 * k + i /\ live m2 k /\ loc i /\ vtx m2 k i = p).
    { intros e He. destruct (HE e He) as (k & i & E & Lk & Li & Ei). exists k, i. rewrite (bf_live m m2 BF), (bf_vtx m m2 BF). auto. }
    assert (HA2 : forall k, live m2 k -> has m2 k p -> In k (els l)).
    { intros k Lk Hk. apply (bf_live m m2 BF) in Lk. apply (bf_has m m2 BF) in Hk. apply BL. apply BC; try assumption. exists ip. auto. }
    destruct (colver_ok m2 p q l start ip iq r) as [[R2 (k & n & W)]|(m' & R2 & C & NT2 & (D1 & D2 & D3) & X)]; try assumption.
    + split; [apply (bf_tab m m2 BF T)|]. split; [apply (bf_vo m m2 BF VO)|apply (bf_adj m m2 BF A)].
    + apply (bf_nt m m2 BF NT).
    + apply (bf_ct m m2 BF p q CT).
    + apply (bf_live m m2 BF), Ls.
    + apply (bf_vtx m m2 BF).
    + apply (bf_vtx m m2 BF).
    + left. exists m2. split; [exact R2|]. split; [exact BF|]. right. exists k, n. destruct W as (W1 & W2 & W3 & W4 & W5 & W6).
      rewrite !(bf_live m m2 BF), !(bf_has m m2 BF) in *. split; [exact W1|]. split; [exact W2|]. split; [exact W3|]. split; [exact W4|]. split; [exact W5|].
      intros x. specialize (W6 x). split; intros (y & Hy & E).
      * destruct W6 as [W6 _]. destruct W6 as (z & Hz & Ez); [exists y; rewrite (bf_has m m2 BF); auto|]. exists z. rewrite (bf_has m m2 BF) in Hz. auto.
      * destruct W6 as [_ W6]. destruct W6 as (z & Hz & Ez); [exists y; rewrite (bf_has m m2 BF); auto|]. exists z. rewrite (bf_has m m2 BF) in Hz. auto.
    + right. exists m'. split; [exact R2|]. split; [exact C|]. split; [exact NT2|]. split; [|destruct BF as (_ & _ & _ & E & _); congruence].
      split; [|split].
      * intros x. rewrite D1, (bf_live m m2 BF), !(bf_has m m2 BF). reflexivity.
      * intros x y Lx Ly. rewrite D2 by assumption. rewrite (bf_vtx m m2 BF). reflexivity.
      * intros x Lx. destruct (D3 x Lx) as (G1 & G2 & G3). destruct BF as (_ & F & _). destruct (F x) as (_ & F1 & F2 & F3). rewrite G1, G2, G3. auto.
Qed.
