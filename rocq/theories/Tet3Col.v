(** The collapse of an edge of a tetrahedral mesh. *)
From Coq Require Import ZArith List Lia Bool.
From Verif Require Import CBase Tet3Model Tet3Spec Tet3Proofs Tet3Ball Tet3Shell Tet3Pool.
Import ListNotations.
Open Scope Z_scope.

Lemma idir_others i j : loc i -> loc j -> (In j (idir i) <-> j <> i).
Proof. intros [->|[->|[->| ->]]] [->|[->|[->| ->]]]; cbv; intuition discriminate. Qed.
Lemma idir_loc i j : loc i -> In j (idir i) -> loc j.
Proof. intros [->|[->|[->| ->]]] H; cbv in H; unfold loc; intuition. Qed.

Lemma enc_pos k i : 1 <= k -> loc i -> 4 * k + i <> 0.
Proof. intros H L. apply loc_le in L. lia. Qed.

Section Col.
Variable m : mesh.
Hypothesis T : tables_ok m.
Hypothesis VO : vertices_ok m.
Hypothesis A : adjacent m.
Hypothesis NT : no_twins m.
Variable p q : Z.
Hypothesis PQ : p <> q.
Variable l : list Z.
Hypothesis HE : forall e, In e l -> exists k i, e = 4 * k + i /\ live m k /\ loc i /\ vtx m k i = p.
Hypothesis HN : NoDup (els l).
Hypothesis HA : forall k, live m k -> has m k p -> In k (els l).

Definition hasb (k x : Z) : bool := existsb (fun j => vtx m k j =? x) [0; 1; 2; 3].
Lemma hasb_ok k x : hasb k x = true <-> has m k x.
Proof.
  unfold hasb, has. rewrite existsb_exists. split.
  - intros (j & I & E). exists j. split; [cbn in I; unfold loc; intuition|apply Z.eqb_eq, E].
  - intros (j & Lj & E). exists j. split; [unfold loc in Lj; cbn; intuition|apply Z.eqb_eq, E].
Qed.
Definition sh (k : Z) : Prop := has m k p /\ has m k q.

Definition mk (e : Z) : Z := if hasb (e / 4) q then - e else e.

Lemma col_mark_ok r : incl r l -> col_mark m q r = Ret (map mk r).
Proof.
  induction r as [|e r IH]; intros I; [reflexivity|]. cbn [col_mark map].
  destruct (HE e (I e (or_introl eq_refl))) as (k & i & -> & Lk & Li & Ei). unfold mk. rewrite dec_div, dec_mod by exact Li.
  rewrite get_t_ok by (apply live_intab; assumption). cbn [bind]. rewrite IH by (intros x Hx; apply I; right; exact Hx). cbn [bind].
  assert (E : existsb (fun i0 => qv (aget (m_tet m) k) i0 =? q) (idir i) = hasb k q).
  { apply eq_true_iff_eq. rewrite hasb_ok, existsb_exists. split.
    - intros (j & Ij & Ej). exists j. split; [apply (idir_loc i), Ij; exact Li|apply Z.eqb_eq, Ej].
    - intros (j & Lj & Ej). exists j. split; [apply idir_others; [exact Li|exact Lj|intros ->; congruence]|apply Z.eqb_eq, Ej]. }
  rewrite E. reflexivity.
Qed.

(** A tetrahedron that would have the vertices of another one. *)
Definition twin (k n : Z) : Prop :=
  live m k /\ live m n /\ k <> n /\ has m k p /\ ~ has m k q /\ has m n q /\ exists i j, loc i /\ loc j /\ vtx m k i = p /\ vtx m n j = q /\ same_face m k i n j.

Lemma col_exists_ok r : incl r l -> exists b, col_exists m q (map mk r) = Ret b /\
  (b = true <-> exists k n, In k (els r) /\ twin k n).
Proof.
  induction r as [|e r IH]; intros I; [exists false; split; [reflexivity|split; [discriminate|intros (k & n & [] & _)]]|].
  destruct IH as (b & R & S); [intros x Hx; apply I; right; exact Hx|]. cbn [map col_exists].
  destruct (HE e (I e (or_introl eq_refl))) as (k & i & -> & Lk & Li & Ei). unfold mk. rewrite dec_div by exact Li.
  assert (PK : 1 <= k) by (apply (live_pos m), Lk). assert (Lo := proj1 (loc_le i) Li).
  assert (EL : els (4 * k + i :: r) = k :: els r) by (unfold els; cbn [map]; rewrite dec_div by exact Li; reflexivity).
  assert (SK : (forall n, ~ twin k n) -> exists b, Ret b = Ret b /\ (b = true <-> exists k0 n, In k0 (els (4 * k + i :: r)) /\ twin k0 n) /\ col_exists m q (map mk r) = Ret b).
  { intros NK. exists b. split; [reflexivity|]. split; [|exact R]. rewrite S, EL. split.
    - intros (k0 & n & I0 & Tw). exists k0, n. split; [right; exact I0|exact Tw].
    - intros (k0 & n & [<-|I0] & Tw); [exfalso; exact (NK n Tw)|]. exists k0, n. auto. }
  assert (SK' : (forall n, ~ twin k n) -> exists b0, col_exists m q (map mk r) = Ret b0 /\ (b0 = true <-> exists k0 n, In k0 (els (4 * k + i :: r)) /\ twin k0 n)).
  { intros NK. destruct (SK NK) as (b0 & _ & S0 & R0). exists b0. auto. }
  destruct (hasb k q) eqn:HB.
  - destruct (Z.ltb_spec (- (4 * k + i)) 0); [|lia]. apply SK'. intros n (_ & _ & _ & _ & X & _). apply X. apply hasb_ok, HB.
  - destruct (Z.ltb_spec (4 * k + i) 0); [lia|]. rewrite dec_div, dec_mod by exact Li.
    assert (NQ : ~ has m k q) by (rewrite <- hasb_ok; congruence).
    rewrite get_adj_ok by (try apply live_intab; assumption). cbn [bind].
    destruct (VO k Lk) as [_ J].
    destruct (Z.eqb_spec (nb m k i) 0) as [Z0|NZ].
    + apply SK'. intros n (_ & Ln & Nkn & _ & _ & _ & i' & j & Li' & Lj & Ei' & Ej & SF).
      assert (i' = i) by (apply J; congruence). subst i'. pose proof (nb_same m k i n j VO A Lk Li Ln Lj (not_eq_sym Nkn) SF). pose proof (live_pos m n Ln). apply loc_le in Lj. lia.
    + destruct (nb_dec m k i VO A Lk Li NZ) as (Ln & Lj & B & NK & SF). set (n := nb m k i / 4) in *. set (j := nb m k i mod 4) in *.
      rewrite get_t_ok by (apply live_intab; assumption). cbn [bind]. change (qv (aget (m_tet m) n) j) with (vtx m n j).
      destruct (Z.eqb_spec (vtx m n j) q) as [Eq|Nq].
      * exists true. split; [reflexivity|]. split; [intros _|reflexivity]. rewrite EL. exists k, n. split; [left; reflexivity|].
        repeat split; try assumption; try apply Lk; try apply Ln; try congruence; [exists i; auto|exists j; auto|]. exists i, j. auto.
      * apply SK'. intros n' (_ & Ln' & Nkn & _ & _ & _ & i' & j' & Li' & Lj' & Ei' & Ej' & SF').
        assert (i' = i) by (apply J; congruence). subst i'. pose proof (nb_same m k i n' j' VO A Lk Li Ln' Lj' (not_eq_sym Nkn) SF') as E.
        unfold n, j in Nq. rewrite E, dec_div, dec_mod in Nq by exact Lj'. contradiction.
Qed.

(** ** The tetrahedra that disappear *)

Definition J (D : list Z) (x y : Z) : Z :=
  let a := nb m x y in
  let s := a / 4 in let j := a mod 4 in
  if negb (a =? 0) && (if in_dec Z.eq_dec s D then true else false)
  then (if vtx m s j =? q then nb m s (find m s p) else if vtx m s j =? p then nb m s (find m s q) else a)
  else a.

Definition INVS (m1 : mesh) (D : list Z) : Prop :=
  tables_ok m1 /\ m_xt m1 = m_xt m /\ (forall k, live m1 k <-> live m k /\ ~ In k D) /\
  (forall k, live m1 k -> aget (m_tet m1) k = aget (m_tet m) k) /\
  (forall x y, live m1 x -> loc y -> nb m1 x y = J D x y).

Lemma find_at k a : live m k -> loc a -> find m k (vtx m k a) = a.
Proof. apply find_ok, VO. Qed.

(** The neighbour of a removed tetrahedron across the face opposite to an end of the edge is not removed. *)
Lemma outer k a : live m k -> sh k -> loc a -> vtx m k a = p \/ vtx m k a = q -> nb m k a <> 0 -> ~ sh (nb m k a / 4).
Proof.
  intros L S La E NZ [Hp Hq]. destruct (nb_dec m k a VO A L La NZ) as (Ln & Lj & B & NK & SF). set (n := nb m k a / 4) in *. set (j := nb m k a mod 4) in *.
  apply NK. apply NT; [exact Ln|exact L|].
  assert (H1 : forall x, has m k x -> has m n x).
  { intros x (b & Lb & Eb). destruct (Z.eq_dec b a) as [->|Nb].
    - rewrite <- Eb. destruct E as [-> | ->]; assumption.
    - apply (on_has m n j), SF. rewrite <- Eb. apply on_other; assumption. }
  intros x. split; [|apply H1]. intros (b & Lb & Eb). destruct (Z.eq_dec b j) as [->|Nb].
  - (* the vertex opposite to the common face is the end that is missing *)
    assert (Hv : has m n (vtx m k a)) by (destruct E as [-> | ->]; assumption). destruct Hv as (c & Lc & Ec).
    destruct (Z.eq_dec c j) as [->|Nc].
    + rewrite <- Eb, Ec. exists a. auto.
    + exfalso. apply (not_on m k a VO L La). apply SF. rewrite <- Ec. apply on_other; assumption.
  - apply (on_has m k a), SF. rewrite <- Eb. apply on_other; assumption.
Qed.

Lemma J_end D k a : (forall x, In x D -> sh x) -> live m k -> sh k -> loc a -> vtx m k a = p \/ vtx m k a = q -> J D k a = nb m k a.
Proof.
  intros HD L S La E. unfold J. destruct (Z.eqb_spec (nb m k a) 0) as [->|NZ]; [reflexivity|]. cbn [negb andb].
  destruct (in_dec Z.eq_dec (nb m k a / 4) D) as [I|]; [|reflexivity]. exfalso. exact (outer k a L S La E NZ (HD _ I)).
Qed.

Lemma find_loc k x : live m k -> has m k x -> loc (find m k x) /\ vtx m k (find m k x) = x.
Proof. intros L H. destruct (first_vtx m k x VO L H) as (a & La & F & E). unfold find. rewrite F. auto. Qed.

Lemma div4_0 a : 0 <= a -> a / 4 = 0 -> a mod 4 = 0 -> a = 0.
Proof. intros. pose proof (Z.div_mod a 4). lia. Qed.

Lemma pq_neq k : live m k -> sh k -> find m k p <> find m k q.
Proof. intros L [Hp Hq] E. destruct (find_loc k p L Hp) as [_ E1], (find_loc k q L Hq) as [_ E2]. congruence. Qed.

Lemma shell_step m1 D k r : INVS m1 D -> (forall x, In x D -> sh x) -> live m k -> sh k -> ~ In k D ->
  exists m2, INVS m2 (k :: D) /\ col_shell m1 q (- (4 * k + find m k p) :: r) = col_shell m2 q r.
Proof.
  intros (T1 & X1 & L1 & F1 & N1) HD Lk Sk NI. pose proof Sk as [Hp Hq].
  destruct (find_loc k p Lk Hp) as [Lip Eip], (find_loc k q Lk Hq) as [Liq Eiq]. pose proof (pq_neq k Lk Sk) as Npq.
  set (ip := find m k p) in *. set (iq := find m k q) in *.
  assert (Lk1 : live m1 k) by (apply L1; auto). assert (PK : 1 <= k) by (apply (live_pos m), Lk). assert (Lo := proj1 (loc_le ip) Lip).
  cbn [col_shell]. destruct (Z.gtb_spec (- (4 * k + ip)) 0); [lia|]. rewrite Z.opp_involutive, dec_div, dec_mod by exact Lip.
  rewrite get_t_ok by (apply live_intab; assumption). cbn [bind]. rewrite (F1 k Lk1).
  assert (EQ : first (fun i => qv (aget (m_tet m) k) i =? q) [inxt3 ip; inxt3 (inxt3 ip); inxt3 (inxt3 (inxt3 ip))] 4 = iq).
  { destruct (first_spec (fun i => qv (aget (m_tet m) k) i =? q) [inxt3 ip; inxt3 (inxt3 ip); inxt3 (inxt3 (inxt3 ip))] 4) as [(a & I & F & Ea)|[_ Ea]].
    - rewrite F. apply Z.eqb_eq in Ea. change (vtx m k a = q) in Ea. destruct (VO k Lk) as [_ Jn]. apply Jn; [|exact Liq|congruence].
      pose proof (loc_nxt _ Lip) as U1. pose proof (loc_nxt _ U1) as U2. pose proof (loc_nxt _ U2) as U3. cbn [In] in I. clear - I U1 U2 U3. destruct I as [E|[E|[E|[]]]]; rewrite <- E; assumption.
    - exfalso. assert (I : In iq [inxt3 ip; inxt3 (inxt3 ip); inxt3 (inxt3 (inxt3 ip))]).
      { clear - Lip Liq Npq. clearbody ip iq. destruct Lip as [->|[->|[->| ->]]], Liq as [->|[->|[->| ->]]]; cbn; auto; congruence. }
      specialize (Ea iq I). apply Z.eqb_neq in Ea. apply Ea. exact Eiq. }
  rewrite EQ. replace (iq <? 4) with true by (symmetry; apply Z.ltb_lt; apply loc_le in Liq; lia). cbn [c_assert bind].
  rewrite get_adj_ok by (try apply live_intab; assumption). cbn [bind]. rewrite get_adj_ok by (try apply live_intab; assumption). cbn [bind].
  rewrite (N1 k iq Lk1 Liq), (N1 k ip Lk1 Lip). rewrite (J_end D k iq), (J_end D k ip) by auto.
  set (a := nb m k iq). set (b := nb m k ip).
  assert (HAB : forall c u, loc u -> c = nb m k u -> (vtx m k u = p \/ vtx m k u = q) ->
    (c = 0 /\ c / 4 = 0 /\ 4 * (c / 4) + c mod 4 = 0) \/ (c <> 0 /\ c / 4 <> 0 /\ live m (c / 4) /\ c / 4 <> k /\ live m1 (c / 4) /\ loc (c mod 4) /\ 4 * (c / 4) + c mod 4 = c /\ nb m (c / 4) (c mod 4) = 4 * k + u)).
  { intros c u Lu Ec Eu. destruct (Z.eq_dec c 0) as [Z0|NZ]; [left; rewrite Z0; auto|right]. subst c.
    destruct (nb_dec m k u VO A Lk Lu NZ) as (Ln & Lj & B & NK & SF). split; [exact NZ|]. split; [apply (live_pos m) in Ln; lia|]. split; [exact Ln|]. split; [exact NK|].
    split; [apply L1; split; [exact Ln|]; intros I; exact (outer k u Lk Sk Lu Eu NZ (HD _ I))|]. split; [exact Lj|]. split; [|exact B]. symmetry. apply Z.div_mod. lia. }
  pose proof (HAB a iq Liq eq_refl (or_intror Eiq)) as Ha. pose proof (HAB b ip Lip eq_refl (or_introl Eip)) as Hb.
  set (ma := if negb (a / 4 =? 0) then pa m1 (a / 4) (a mod 4) b else m1).
  assert (Fa : same_frame m1 ma) by (unfold ma; destruct (negb (a / 4 =? 0)); [apply frame_pa|apply frame_refl]).
  assert (Ra : (if negb (a / 4 =? 0) then set_adj m1 (a / 4) (a mod 4) (4 * (b / 4) + b mod 4) else Ret m1) = Ret ma).
  { unfold ma. destruct (Z.eqb_spec (a / 4) 0); [reflexivity|]. cbn [negb]. destruct Ha as [(_ & ? & _)|(_ & _ & Ln & _ & L1n & Lj & _)]; [contradiction|].
    rewrite set_adj_ok by (try apply live_intab; assumption). replace (4 * (b / 4) + b mod 4) with b by (apply Z.div_mod; lia). reflexivity. }
  rewrite Ra. cbn [bind].
  set (mb := if negb (b / 4 =? 0) then pa ma (b / 4) (b mod 4) a else ma).
  assert (Rb : (if negb (b / 4 =? 0) then set_adj ma (b / 4) (b mod 4) (4 * (a / 4) + a mod 4) else Ret ma) = Ret mb).
  { unfold mb. destruct (Z.eqb_spec (b / 4) 0); [reflexivity|]. cbn [negb]. destruct Hb as [(_ & ? & _)|(_ & _ & Ln & _ & L1n & Lj & _)]; [contradiction|].
    rewrite set_adj_ok by (try (apply (intab_frame m1 ma); [exact Fa|apply live_intab]); assumption). replace (4 * (a / 4) + a mod 4) with a by (apply Z.div_mod; lia). reflexivity. }
  rewrite Rb. cbn [bind].
  assert (Tet : m_tet mb = m_tet m1) by (unfold mb, ma; destruct (negb (b / 4 =? 0)), (negb (a / 4 =? 0)); reflexivity).
  assert (Xt : m_xt mb = m_xt m1) by (unfold mb, ma; destruct (negb (b / 4 =? 0)), (negb (a / 4 =? 0)); reflexivity).
  assert (Tb : tables_ok mb).
  { destruct T1 as (B1 & B2 & B3 & B4 & B5 & (fl & B6 & Fu) & B7 & NEQ).
    assert (Fr : same_frame m1 mb) by (unfold mb; destruct (negb (b / 4 =? 0)); [eapply frame_trans; [exact Fa|apply frame_pa]|exact Fa]).
    destruct Fr as (C1 & C2 & _ & C4 & C5 & C6 & _ & _ & C9 & _). unfold tables_ok, vtx, live. rewrite C1, C2, C4, C5, C6, C9, Tet.
    repeat split; try assumption; try apply B3. exists fl. split; [|apply (full_frame m1 mb); [exact C6|intros x; unfold live; rewrite Tet; auto|exact Fu]]. apply (chain_frame m1 mb); [lia|intros x; unfold live; rewrite Tet; auto|exact B6|intros x _; unfold vtx; rewrite Tet; reflexivity]. }
  assert (Lb : forall x, live mb x <-> live m1 x) by (intros x; unfold live; rewrite Tet; reflexivity).
  destruct (delElt_ok mb k Tb (proj2 (Lb k) Lk1)) as (m2 & R2 & T2 & X2 & L2 & V2 & N2). rewrite R2. cbn [bind Z.eqb].
  exists m2. split; [|reflexivity]. unfold INVS. split; [exact T2|]. split; [congruence|]. split; [|split].
  - intros x. rewrite L2, Lb, L1. cbn [In]. intuition congruence.
  - intros x Lx. apply L2 in Lx. destruct Lx as [Lx Nx]. rewrite V2 by exact Nx. rewrite Tet. apply F1, Lb, Lx.
  - intros x y Lx Ly. apply L2 in Lx. destruct Lx as [Lx Nx]. apply Lb in Lx. rewrite N2 by assumption. pose proof (proj1 (L1 x) Lx) as [Lx0 NxD].
    assert (Vb : nb mb x y = if negb (b / 4 =? 0) && at2 (b / 4) (b mod 4) x y then a else if negb (a / 4 =? 0) && at2 (a / 4) (a mod 4) x y then b else nb m1 x y).
    { unfold mb, ma. destruct (negb (b / 4 =? 0)), (negb (a / 4 =? 0)); cbn [andb]; rewrite ?nb_pa by (try apply loc_mod; assumption); reflexivity. }
    rewrite Vb, (N1 x y Lx Ly). clear Vb.
    assert (SB : (negb (b / 4 =? 0) && at2 (b / 4) (b mod 4) x y = true) <-> nb m x y = 4 * k + ip).
    { rewrite andb_true_iff, negb_true_iff, Z.eqb_neq. split.
      - intros [Nz E]. destruct (at2_dec (b / 4) (b mod 4) x y) as [(E1 & E2 & _)|(_ & E')]; [|congruence]. rewrite E1, E2.
        destruct Hb as [(_ & ? & _)|(_ & _ & _ & _ & _ & _ & _ & B)]; [contradiction|exact B].
      - intros E. assert (Ex : nb m k ip = 4 * x + y).
        { assert (NZ : nb m x y <> 0) by (rewrite E; apply enc_pos; assumption). destruct (nb_dec m x y VO A Lx0 Ly NZ) as (_ & _ & B & _). rewrite E, dec_div, dec_mod in B by exact Lip. exact B. }
        change b with (nb m k ip). rewrite Ex, dec_div, dec_mod by exact Ly. split; [apply (live_pos m) in Lx0; lia|apply at2_same]. }
    assert (SA : (negb (a / 4 =? 0) && at2 (a / 4) (a mod 4) x y = true) <-> nb m x y = 4 * k + iq).
    { rewrite andb_true_iff, negb_true_iff, Z.eqb_neq. split.
      - intros [Nz E]. destruct (at2_dec (a / 4) (a mod 4) x y) as [(E1 & E2 & _)|(_ & E')]; [|congruence]. rewrite E1, E2.
        destruct Ha as [(_ & ? & _)|(_ & _ & _ & _ & _ & _ & _ & B)]; [contradiction|exact B].
      - intros E. assert (Ex : nb m k iq = 4 * x + y).
        { assert (NZ : nb m x y <> 0) by (rewrite E; apply enc_pos; assumption). destruct (nb_dec m x y VO A Lx0 Ly NZ) as (_ & _ & B & _). rewrite E, dec_div, dec_mod in B by exact Liq. exact B. }
        change a with (nb m k iq). rewrite Ex, dec_div, dec_mod by exact Ly. split; [apply (live_pos m) in Lx0; lia|apply at2_same]. }
    destruct (negb (b / 4 =? 0) && at2 (b / 4) (b mod 4) x y).
    + pose proof (proj1 SB eq_refl) as E. unfold J. rewrite E. rewrite dec_div, dec_mod by exact Lip.
      rewrite (proj2 (Z.eqb_neq (4 * k + ip) 0)) by (apply enc_pos; assumption). cbn [negb andb].
      destruct (in_dec Z.eq_dec k (k :: D)) as [_|X]; [|exfalso; apply X; left; reflexivity].
      rewrite Eip, (proj2 (Z.eqb_neq p q) PQ), Z.eqb_refl. reflexivity.
    + destruct (negb (a / 4 =? 0) && at2 (a / 4) (a mod 4) x y).
      * pose proof (proj1 SA eq_refl) as E. unfold J. rewrite E. rewrite dec_div, dec_mod by exact Liq.
        rewrite (proj2 (Z.eqb_neq (4 * k + iq) 0)) by (apply enc_pos; assumption). cbn [negb andb].
        destruct (in_dec Z.eq_dec k (k :: D)) as [_|X]; [|exfalso; apply X; left; reflexivity].
        rewrite Eiq, Z.eqb_refl. reflexivity.
      * assert (NB : nb m x y <> 4 * k + ip) by (intros E; apply SB in E; discriminate). assert (NA : nb m x y <> 4 * k + iq) by (intros E; apply SA in E; discriminate).
        unfold J. destruct (Z.eqb_spec (nb m x y) 0) as [->|NZ]; [reflexivity|]. cbn [negb andb].
        destruct (nb_dec m x y VO A Lx0 Ly NZ) as (Ln & Lj & B & NK & SF). pose proof (Z.div_mod (nb m x y) 4 ltac:(lia)) as DM.
        set (n := nb m x y / 4) in *. set (j := nb m x y mod 4) in *.
        destruct (in_dec Z.eq_dec n D) as [I|NI2].
        -- destruct (in_dec Z.eq_dec n (k :: D)) as [_|X]; [reflexivity|exfalso; apply X; right; exact I].
        -- destruct (in_dec Z.eq_dec n (k :: D)) as [[E|I]|X]; [|contradiction|reflexivity].
           assert (Nq : vtx m n j <> q). { intros Eq. apply NA. rewrite DM. rewrite <- E. f_equal. unfold iq. rewrite <- Eq, E. symmetry. apply find_at; assumption. }
           assert (Np : vtx m n j <> p). { intros Eq. apply NB. rewrite DM. rewrite <- E. f_equal. unfold ip. rewrite <- Eq, E. symmetry. apply find_at; assumption. }
           rewrite (proj2 (Z.eqb_neq _ _) Nq), (proj2 (Z.eqb_neq _ _) Np). reflexivity.
Qed.

Lemma col_shell_ok r : forall m1 D, incl r l -> NoDup (els r) -> INVS m1 D -> (forall x, In x D -> sh x) -> (forall x, In x D -> ~ In x (els r)) ->
  exists m2 D2, col_shell m1 q (map mk r) = Ret (1, m2) /\ INVS m2 D2 /\ (forall x, In x D2 <-> In x D \/ (In x (els r) /\ sh x)).
Proof.
  induction r as [|e r IH]; intros m1 D I ND HI HD HX.
  - exists m1, D. split; [reflexivity|]. split; [exact HI|]. intros x. cbn. tauto.
  - destruct (HE e (I e (or_introl eq_refl))) as (k & i & -> & Lk & Li & Ei).
    assert (EL : els (4 * k + i :: r) = k :: els r) by (unfold els; cbn [map]; rewrite dec_div by exact Li; reflexivity).
    rewrite EL in *. inversion ND as [|? ? Nk NDr]; subst. cbn [map]. unfold mk at 1. rewrite dec_div by exact Li.
    assert (Hp : has m k p) by (exists i; auto). assert (Fi : find m k p = i) by (rewrite <- Ei; apply find_at; assumption).
    assert (I' : incl r l) by (intros x Hx; apply I; right; exact Hx).
    destruct (hasb k q) eqn:HB.
    + assert (Sk : sh k) by (split; [exact Hp|apply hasb_ok, HB]).
      assert (NkD : ~ In k D) by (intros X; apply (HX k X); left; reflexivity).
      destruct (shell_step m1 D k (map mk r) HI HD Lk Sk NkD) as (m2 & H2 & R). rewrite Fi in R. rewrite R.
      destruct (IH m2 (k :: D) I' NDr H2) as (m3 & D3 & R3 & H3 & S3).
      * intros x [<-|X]; [exact Sk|apply HD, X].
      * intros x [<-|X]; [exact Nk|]. intros Y. apply (HX x X). right. exact Y.
      * exists m3, D3. split; [exact R3|]. split; [exact H3|]. intros x. rewrite S3. cbn [In]. intuition (subst; auto).
    + cbn [col_shell]. destruct (Z.gtb_spec (4 * k + i) 0) as [_|X]; [|exfalso; apply (live_pos m) in Lk; apply loc_le in Li; lia].
      destruct (IH m1 D I' NDr HI HD) as (m3 & D3 & R3 & H3 & S3); [intros x X Y; apply (HX x X); right; exact Y|].
      exists m3, D3. split; [exact R3|]. split; [exact H3|]. intros x. rewrite S3. cbn [In]. split; [tauto|]. intros [H|[[<-|H] Sx]]; auto.
      exfalso. destruct Sx as [_ Hq]. apply hasb_ok in Hq. congruence.
Qed.

(** ** The vertex moves *)

Lemma col_move_ok m1 r : tables_ok m1 -> 0 < q -> (forall e, In e r -> e < 0 \/ (live m1 (e / 4) /\ 0 <= e)) ->
  exists m2, col_move m1 q r = Ret m2 /\ same_frame m1 m2 /\ m_adj m2 = m_adj m1 /\
  (forall x, live m2 x <-> live m1 x) /\
  (forall x, qref (aget (m_tet m2) x) = qref (aget (m_tet m1) x) /\ qtag (aget (m_tet m2) x) = qtag (aget (m_tet m1) x) /\ qxt (aget (m_tet m2) x) = qxt (aget (m_tet m1) x) /\ qflag (aget (m_tet m2) x) = qflag (aget (m_tet m1) x)) /\
  (forall x y, loc y -> In (4 * x + y) r -> 1 <= x -> vtx m2 x y = q) /\
  (forall x y, loc y -> ~ In (4 * x + y) r -> vtx m2 x y = vtx m1 x y).
Proof.
  revert m1. induction r as [|e r IH]; intros m1 T1 PQ0 H.
  - exists m1. split; [reflexivity|]. split; [apply frame_refl|]. split; [reflexivity|]. split; [reflexivity|]. split; [auto|]. split; [intros x y _ []|reflexivity].
  - cbn [col_move]. destruct (H e (or_introl eq_refl)) as [Ne|[Le Pe]].
    + destruct (Z.ltb_spec e 0); [|lia]. destruct (IH m1 T1 PQ0) as (m2 & R & F & EA & L & FI & V1 & V2); [intros x Hx; apply H; right; exact Hx|].
      exists m2. split; [exact R|]. split; [exact F|]. split; [exact EA|]. split; [exact L|]. split; [exact FI|]. split.
      * intros x y Ly [E|I] Hx; [apply loc_le in Ly; lia|]. apply V1; assumption.
      * intros x y Ly NI. apply V2; [exact Ly|]. intros I. apply NI. right. exact I.
    + destruct (Z.ltb_spec e 0); [lia|]. set (k := e / 4) in *. set (i := e mod 4). assert (Li : loc i) by apply loc_mod.
      assert (DM : e = 4 * k + i) by (apply Z.div_mod; lia).
      rewrite set_v_ok by (apply live_intab; assumption). cbn [bind]. set (m1' := pv m1 k i q).
      assert (L1 : forall x, live m1' x <-> live m1 x).
      { intros x. unfold live, m1', pv. cbn [m_tet p_tet alen aget]. unfold upd at 1. destruct (Z.eqb_spec x k) as [->|]; [|reflexivity].
        cbn [qv]. unfold upd. destruct (Z.eqb_spec 0 i); [|reflexivity]. destruct Le. tauto. }
      assert (T1' : tables_ok m1').
      { destruct T1 as (B1 & B2 & B3 & B4 & B5 & (fl & B6 & Fu) & B7 & NEQ). unfold tables_ok. split; [exact B1|]. split; [exact B2|]. split; [exact B3|].
        assert (Kn : k <= m_ne m1) by (apply B5, Le).
        split; [unfold m1'; rewrite vtx_pv, at2_k by (change (m_nemax (pv m1 k i q)) with (m_nemax m1); clear - Kn B3; lia); exact B4|]. split; [intros x Lx; apply B5, L1, Lx|]. split; [|split; [exact B7|destruct NEQ as [Q|Q]; [left; exact Q|right; apply L1, Q]]].
        exists fl. split; [|apply (full_frame m1 m1'); [reflexivity|intros x; apply L1|exact Fu]]. apply (chain_frame m1 m1'); [apply Z.le_refl|intros x; apply L1|exact B6|]. intros x Hx. unfold m1'. rewrite vtx_pv, at2_k; [reflexivity|].
        intros ->. clear - B6 Hx Le. induction B6 as [|k0 l0 B N I Ch IHc]; [destruct Hx|]. destruct Hx as [->|Hx]; [contradiction|exact (IHc Hx)]. }
      destruct (IH m1' T1' PQ0) as (m2 & R & F & EA & L & FI & V1 & V2).
      { intros x Hx. destruct (H x (or_intror Hx)) as [?|[? ?]]; [auto|]. right. split; [apply L1; assumption|assumption]. }
      exists m2. split; [exact R|]. split; [eapply frame_trans; [apply frame_pv|exact F]|]. split; [exact EA|]. split; [intros x; rewrite L; apply L1|]. split; [|split].
      * intros x. destruct (FI x) as (G1 & G2 & G3 & G4). rewrite G1, G2, G3, G4. unfold m1', pv. cbn [m_tet p_tet aget]. unfold upd. destruct (Z.eqb_spec x k) as [->|]; cbn; auto.
      * intros x y Ly [E|I] Hx; [|apply V1; assumption]. destruct (in_dec Z.eq_dec (4 * x + y) r) as [I|NI]; [apply V1; assumption|].
        rewrite V2 by assumption. rewrite DM in E. assert (k = x /\ i = y) as [<- <-] by (apply loc_le in Ly, Li; lia). unfold m1'. rewrite vtx_pv, at2_same. reflexivity.
      * intros x y Ly NI. rewrite V2 by (try exact Ly; intros I; apply NI; right; exact I). unfold m1'. rewrite vtx_pv.
        destruct (at2_dec k i x y) as [(-> & -> & _)|(_ & ->)]; [|reflexivity]. exfalso. apply NI. left. exact DM.
Qed.
End Col.
