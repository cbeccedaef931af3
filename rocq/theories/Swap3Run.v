(** Run of the swap of two tetrahedra into three. *)
From Coq Require Import ZArith List Lia Bool.
From Verif Require Import CBase Tet3Model Tet3Spec Tet3Proofs Tet3Pool Tet3Col Tet3Out Tet3Shell Tet3Tag Rewire Swap3Model Swap3Out Swap3Core.
Import ListNotations.
Open Scope Z_scope.

(** ** The distribution of the boundary tetrahedra *)

(** Everything but the boundary tetrahedra. *)
Definition but_x (m m' : mesh) : Prop :=
  alen (m_tet m') = alen (m_tet m) /\ m_adj m' = m_adj m /\ m_nil m' = m_nil m /\ m_ne m' = m_ne m /\ m_nemax m' = m_nemax m /\
  m_base m' = m_base m /\ m_gaps m' = m_gaps m /\
  forall x, qv (aget (m_tet m') x) = qv (aget (m_tet m) x) /\ qref (aget (m_tet m') x) = qref (aget (m_tet m) x) /\
    qtag (aget (m_tet m') x) = qtag (aget (m_tet m) x) /\ qflag (aget (m_tet m') x) = qflag (aget (m_tet m) x).

Lemma bx_live m m' x : but_x m m' -> (live m' x <-> live m x).
Proof. intros (A & _ & _ & _ & _ & _ & _ & B). unfold live. rewrite A. destruct (B x) as (-> & _). reflexivity. Qed.
Lemma bx_vtx m m' x i : but_x m m' -> vtx m' x i = vtx m x i.
Proof. intros (_ & _ & _ & _ & _ & _ & _ & B). unfold vtx. destruct (B x) as (-> & _). reflexivity. Qed.
Lemma bx_nb m m' x i : but_x m m' -> nb m' x i = nb m x i.
Proof. intros (_ & B & _). unfold nb. rewrite B. reflexivity. Qed.
Lemma bx_face m m' k i x : but_x m m' -> (on_face m' k i x <-> on_face m k i x).
Proof. intros B. split; intros (a & La & N & E); exists a; [rewrite (bx_vtx m m') in E by exact B|rewrite (bx_vtx m m') by exact B]; auto. Qed.
Lemma bx_intab m m' x : but_x m m' -> intab m x -> intab m' x.
Proof. intros (A & B & _) H. unfold intab in *. rewrite A, B. exact H. Qed.
Lemma bx_same m m' k i l j : but_x m m' -> (same_face m' k i l j <-> same_face m k i l j).
Proof.
  intros B. split; intros H p; specialize (H p).
  - rewrite <- (bx_face m m' k i p B), <- (bx_face m m' l j p B). exact H.
  - rewrite (bx_face m m' k i p B), (bx_face m m' l j p B). exact H.
Qed.
Lemma bx_conforming m m' : but_x m m' -> conforming m -> conforming m'.
Proof.
  intros B (T & V & A). pose proof B as (B1 & B2 & B3 & B4 & B5 & B6 & B7 & B8). split; [|split].
  - destruct T as (T1 & T2 & T3 & T4 & T5 & (fl & T6 & Fu) & T7 & NEQ). unfold tables_ok. rewrite B1, B2, B3, B4, B5, B7, (bx_vtx m m') by exact B.
    repeat split; try assumption; try apply T3.
    + intros x Lx. apply T5, (bx_live m m' x B), Lx.
    + exists fl. split; [apply (chain_frame m m'); [lia|intros x Lx; apply (bx_live m m' x B), Lx|exact T6|intros x _; apply bx_vtx, B]|].
      intros x Bx. destruct (Fu x) as [Q|Q]; [lia|left; apply (bx_live m m' x B), Q|right; exact Q].
    + destruct NEQ as [Q|Q]; [left; exact Q|right; apply (bx_live m m' _ B), Q].
  - intros x Lx. apply (bx_live m m' x B) in Lx. destruct (V x Lx) as [P J]. split.
    + intros a La. rewrite (bx_vtx m m') by exact B. apply P, La.
    + intros a b La Lb. rewrite !(bx_vtx m m') by exact B. apply J; assumption.
  - intros k i Lk Li. apply (bx_live m m' k B) in Lk. rewrite (bx_nb m m') by exact B. destruct (A k i Lk Li) as [[Z U]|(l & j & Ll & Lj & E & N & S & U)].
    + left. split; [exact Z|]. intros l j Ll Lj S. apply U; [apply (bx_live m m' l B), Ll|exact Lj|]. apply (bx_same m m' _ _ _ _ B), S.
    + right. exists l, j. split; [apply (bx_live m m' l B), Ll|]. split; [exact Lj|]. split; [exact E|]. split; [exact N|]. split; [apply (bx_same m m' _ _ _ _ B), S|].
      intros l' j' Ll' Lj' S'. apply U; [apply (bx_live m m' l' B), Ll'|exact Lj'|]. apply (bx_same m m' _ _ _ _ B), S'.
Qed.
Lemma bx_oriented m m' : but_x m m' -> oriented m -> oriented m'.
Proof.
  intros B O k i Lk Li. rewrite (bx_nb m m') by exact B. intros NZ. apply (bx_live m m' k B) in Lk. specialize (O k i Lk Li NZ).
  assert (F : forall x y, fpts m' x y = fpts m x y) by (intros x y; unfold fpts; apply map_ext; intros a; apply bx_vtx, B).
  rewrite !F. exact O.
Qed.

(** [q] gives the numbers of the boundary tetrahedra, [X] the first [n] of them. *)
Definition ST (m0 m : mesh) (q : Z -> Z) (n : Z) (X : Z -> xtet) : Prop :=
  but_x m0 m /\ (forall x, qxt (aget (m_tet m) x) = q x) /\ m_nxt m = n /\ 0 <= n < alen (m_xt m) /\ alen (m_xt m0) <= alen (m_xt m) /\
  (forall i, 0 <= i <= n -> aget (m_xt m) i = X i) /\ (forall g, In g (m_xgaps m) -> 1 <= g).

Lemma ST_x m0 m q n X i x : ST m0 m q n X -> 0 <= i <= n -> exists m', set_x m i x = Ret m' /\ ST m0 m' q n (upd X i x).
Proof.
  intros (B & Q & N & L & LL & XX & G) H. unfold set_x. rewrite wr_ok by lia. cbn [bind]. eexists. split; [reflexivity|].
  split; [exact B|]. split; [exact Q|]. split; [exact N|]. split; [exact L|]. split; [exact LL|]. split; [|exact G].
  intros j Hj. cbn [m_xt p_xts aget]. unfold upd. destruct (j =? i); [reflexivity|apply XX, Hj].
Qed.

Lemma ST_q m0 m q n X k x : intab m0 k -> ST m0 m q n X -> exists m', set_qxt m k x = Ret m' /\ ST m0 m' (upd q k x) n X.
Proof.
  intros I (B & Q & N & L & LL & XX & G). pose proof (bx_intab m0 m k B I) as I'. unfold set_qxt. rewrite get_t_ok by exact I'. cbn [bind]. rewrite set_t_ok by exact I'.
  eexists. split; [reflexivity|]. destruct B as (B1 & B2 & B3 & B4 & B5 & B6 & B7 & B8).
  split; [|split; [|split; [exact N|split; [exact L|split; [exact LL|split; [exact XX|exact G]]]]]].
  - split; [exact B1|]. repeat (split; [assumption|]). intros y. cbn [pt m_tet p_tet aget]. unfold upd. destruct (Z.eqb_spec y k) as [->|]; [|apply B8].
    cbn [qv qref qtag qflag]. apply B8.
  - intros y. cbn [pt m_tet p_tet aget]. unfold upd. destruct (Z.eqb_spec y k) as [->|]; [reflexivity|apply Q].
Qed.

Lemma ST_new m0 m q n X x : ST m0 m q n X -> (new_x m x = Ret None /\ alen (m_xt m0) <= n + 1) \/ exists m', new_x m x = Ret (Some (n + 1, m')) /\ ST m0 m' q (n + 1) (upd X (n + 1) x).
Proof.
  intros (B & Q & N & L & LL & XX & G). unfold new_x. rewrite N. rewrite Z.gtb_ltb. destruct (Z.ltb_spec (alen (m_xt m) - 1) (n + 1)) as [Y|Y].
  - destruct (m_xgaps m) as [|g gs] eqn:EG; [left; split; [reflexivity|lia]|right]. assert (Hg : 1 <= g) by (apply G; left; reflexivity).
    unfold set_x. rewrite wr_ok by (cbn; lia). cbn [bind]. eexists. split; [reflexivity|].
    split; [exact B|]. split; [exact Q|]. split; [reflexivity|]. split; [cbn; lia|]. split; [cbn; lia|]. split; [|intros h Hh; apply G; right; exact Hh].
    intros j Hj. cbn [m_xt p_xts p_nxt p_xgaps arecalloc aget]. unfold upd. destruct (Z.eqb_spec j (n + 1)); [reflexivity|].
    destruct (Z.ltb_spec j (alen (m_xt m))); [apply XX; lia|lia].
  - right. unfold set_x. rewrite wr_ok by (cbn; lia). cbn [bind]. eexists. split; [reflexivity|].
    split; [exact B|]. split; [exact Q|]. split; [reflexivity|]. split; [cbn; lia|]. split; [exact LL|]. split; [|exact G].
    intros j Hj. cbn [m_xt p_xts p_nxt aget]. unfold upd. destruct (Z.eqb_spec j (n + 1)); [reflexivity|apply XX; lia].
Qed.

(** The boundary tetrahedron of [x] is [v], or there is none and [v] has no mark. *)
Definition gets (q : Z -> Z) (n : Z) (X : Z -> xtet) (x : Z) (v : xtet) : Prop :=
  if isx v then 1 <= q x <= n /\ X (q x) = v else q x = 0.

Section Share.
Variable m0 : mesh.
Variable k k1 iel xi xt1 n : Z.
Variable q : Z -> Z.
Variable X : Z -> xtet.
Variable a b c : xtet.
Hypothesis H0 : ST m0 m0 q n X.
Hypothesis Ik : intab m0 k.
Hypothesis Ik1 : intab m0 k1.
Hypothesis Ii : intab m0 iel.
Hypothesis N1 : k1 <> k.
Hypothesis N2 : iel <> k.
Hypothesis N3 : iel <> k1.
Hypothesis Qk : q k = xi.
Hypothesis Qi : q iel = xi.
Hypothesis Hx : 1 <= xi <= n.
Hypothesis H1 : 0 <= xt1 <= n.
Hypothesis Nx : xt1 <> xi.
Hypothesis TWO : (isx a && isx b) || (isx b && isx c) || (isx c && isx a) = true.

(** What is reached when memory does not lack. *)
Definition shared (m' : mesh) : Prop :=
  exists q' n' X', ST m0 m' q' n' X' /\ n <= n' /\
  gets q' n' X' k a /\ gets q' n' X' k1 b /\ gets q' n' X' iel c /\
  (forall x, x <> k -> x <> k1 -> x <> iel -> q' x = q x) /\
  (forall i, 0 <= i <= n -> i <> xi -> (i <> xt1 \/ i = 0) -> X' i = X i) /\
  (forall x, (x = k \/ x = k1 \/ x = iel) -> q' x = 0 \/ q' x = xi \/ q' x = xt1 \/ n < q' x) /\
  (q' k <> 0 -> q' k <> q' k1 /\ q' k <> q' iel) /\ (q' k1 <> 0 -> q' k1 <> q' iel).

Ltac up := repeat first [rewrite upd_same | rewrite upd_other by (congruence || lia)].

Lemma share_ok : exists r m', share_x m0 k k1 iel xi xt1 a b c = Ret (r, m') /\ but_x m0 m' /\ ((r = -1 /\ alen (m_xt m0) <= n + 2) \/ (r = 1 /\ shared m')).
Proof.
  unfold share_x. rewrite TWO. cbn [c_assert bind].
  assert (BX : forall m q n X, ST m0 m q n X -> but_x m0 m) by (intros ? ? ? ? S; apply S).
  destruct (isx a) eqn:Ea.
  - destruct (ST_x m0 m0 q n X xi a H0) as (m1 & -> & S1); [lia|]. cbn [bind].
    destruct (Z.eqb_spec xt1 0) as [E|NE]; cbn [negb].
    + destruct (isx b) eqn:Eb.
      * destruct (ST_new _ _ _ _ _ b S1) as [[-> Z0]|(m2 & -> & S2)]; cbn [bind]; [eexists _, _; split; [reflexivity|]; split; [eapply BX; eassumption|left; split; [reflexivity|lia]]|].
        destruct (ST_q _ _ _ _ _ k1 (n + 1) Ik1 S2) as (m3 & -> & S3). cbn [bind].
        destruct (isx c) eqn:Ec.
        -- destruct (ST_new _ _ _ _ _ c S3) as [[-> Z0]|(m4 & -> & S4)]; cbn [bind]; [eexists _, _; split; [reflexivity|]; split; [eapply BX; eassumption|left; split; [reflexivity|lia]]|].
           destruct (ST_q _ _ _ _ _ iel (n + 1 + 1) Ii S4) as (m5 & -> & S5). cbn [bind].
           eexists _, _. split; [reflexivity|]. split; [eapply BX; eassumption|right]. split; [reflexivity|]. eexists _, _, _. split; [exact S5|].
           unfold gets. rewrite Ea, Eb, Ec. up. rewrite Qk. up. repeat split; try lia.
           ++ intros x X1 X2 X3. up. reflexivity.
           ++ intros i Hi X1 X2. up. reflexivity.
           ++ intros x [->|[->| ->]]; up; lia.
        -- cbn [bind]. destruct (ST_q _ _ _ _ _ iel 0 Ii S3) as (m5 & -> & S5). cbn [bind].
           eexists _, _. split; [reflexivity|]. split; [eapply BX; eassumption|right]. split; [reflexivity|]. eexists _, _, _. split; [exact S5|].
           unfold gets. rewrite Ea, Eb, Ec. up. rewrite Qk. up. repeat split; try lia.
           ++ intros x X1 X2 X3. up. reflexivity.
           ++ intros i Hi X1 X2. up. reflexivity.
           ++ intros x [->|[->| ->]]; up; lia.
      * cbn [bind]. destruct (ST_q _ _ _ _ _ k1 0 Ik1 S1) as (m3 & -> & S3). cbn [bind].
        destruct (isx c) eqn:Ec; [|discriminate TWO].
        destruct (ST_new _ _ _ _ _ c S3) as [[-> Z0]|(m4 & -> & S4)]; cbn [bind]; [eexists _, _; split; [reflexivity|]; split; [eapply BX; eassumption|left; split; [reflexivity|lia]]|].
        destruct (ST_q _ _ _ _ _ iel (n + 1) Ii S4) as (m5 & -> & S5). cbn [bind].
        eexists _, _. split; [reflexivity|]. split; [eapply BX; eassumption|right]. split; [reflexivity|]. eexists _, _, _. split; [exact S5|].
        unfold gets. rewrite Ea, Eb, Ec. up. rewrite Qk. up. repeat split; try lia.
        -- intros x X1 X2 X3. up. reflexivity.
        -- intros i Hi X1 X2. up. reflexivity.
        -- intros x [->|[->| ->]]; up; lia.
    + destruct (isx b) eqn:Eb.
      * destruct (ST_q _ _ _ _ _ k1 xt1 Ik1 S1) as (m2 & -> & S2). cbn [bind].
        destruct (ST_x _ _ _ _ _ xt1 b S2) as (m3 & -> & S3); [lia|]. cbn [bind].
        destruct (isx c) eqn:Ec.
        -- destruct (ST_new _ _ _ _ _ c S3) as [[-> Z0]|(m4 & -> & S4)]; cbn [bind]; [eexists _, _; split; [reflexivity|]; split; [eapply BX; eassumption|left; split; [reflexivity|lia]]|].
           destruct (ST_q _ _ _ _ _ iel (n + 1) Ii S4) as (m5 & -> & S5). cbn [bind].
           eexists _, _. split; [reflexivity|]. split; [eapply BX; eassumption|right]. split; [reflexivity|]. eexists _, _, _. split; [exact S5|].
           unfold gets. rewrite Ea, Eb, Ec. up. rewrite Qk. up. repeat split; try lia.
           ++ intros x X1 X2 X3. up. reflexivity.
           ++ intros i Hi X1 X2. up. reflexivity.
           ++ intros x [->|[->| ->]]; up; lia.
        -- destruct (ST_q _ _ _ _ _ iel 0 Ii S3) as (m5 & -> & S5). cbn [bind].
           eexists _, _. split; [reflexivity|]. split; [eapply BX; eassumption|right]. split; [reflexivity|]. eexists _, _, _. split; [exact S5|].
           unfold gets. rewrite Ea, Eb, Ec. up. rewrite Qk. up. repeat split; try lia.
           ++ intros x X1 X2 X3. up. reflexivity.
           ++ intros i Hi X1 X2. up. reflexivity.
           ++ intros x [->|[->| ->]]; up; lia.
      * destruct (isx c) eqn:Ec; [|discriminate TWO].
        destruct (ST_q _ _ _ _ _ k1 0 Ik1 S1) as (m2 & -> & S2). cbn [bind].
        destruct (ST_q _ _ _ _ _ iel xt1 Ii S2) as (m3 & -> & S3). cbn [bind].
        destruct (ST_x _ _ _ _ _ xt1 c S3) as (m4 & -> & S4); [lia|]. cbn [bind].
        eexists _, _. split; [reflexivity|]. split; [eapply BX; eassumption|right]. split; [reflexivity|]. eexists _, _, _. split; [exact S4|].
        unfold gets. rewrite Ea, Eb, Ec. up. rewrite Qk. up. repeat split; try lia.
        -- intros x X1 X2 X3. up. reflexivity.
        -- intros i Hi X1 X2. up. reflexivity.
        -- intros x [->|[->| ->]]; up; lia.
  - destruct (isx b) eqn:Eb, (isx c) eqn:Ec; try discriminate TWO.
    destruct (ST_q _ _ _ _ _ k 0 Ik H0) as (m1 & -> & S1). cbn [bind].
    destruct (ST_x _ _ _ _ _ xi c S1) as (m2 & -> & S2); [lia|]. cbn [bind].
    destruct (Z.eqb_spec xt1 0) as [E|NE]; cbn [negb].
    + destruct (ST_new _ _ _ _ _ b S2) as [[-> Z0]|(m3 & -> & S3)]; cbn [bind]; [eexists _, _; split; [reflexivity|]; split; [eapply BX; eassumption|left; split; [reflexivity|lia]]|].
      destruct (ST_q _ _ _ _ _ k1 (n + 1) Ik1 S3) as (m4 & -> & S4). cbn [bind].
      eexists _, _. split; [reflexivity|]. split; [eapply BX; eassumption|right]. split; [reflexivity|]. eexists _, _, _. split; [exact S4|].
      unfold gets. rewrite Ea, Eb, Ec. up. rewrite Qi. up. repeat split; try lia.
      -- intros x X1 X2 X3. up. reflexivity.
      -- intros i Hi X1 X2. up. reflexivity.
      -- intros x [->|[->| ->]]; up; lia.
    + destruct (ST_q _ _ _ _ _ k1 xt1 Ik1 S2) as (m3 & -> & S3). cbn [bind].
      destruct (ST_x _ _ _ _ _ xt1 b S3) as (m4 & -> & S4); [lia|]. cbn [bind].
      eexists _, _. split; [reflexivity|]. split; [eapply BX; eassumption|right]. split; [reflexivity|]. eexists _, _, _. split; [exact S4|].
      unfold gets. rewrite Ea, Eb, Ec. up. rewrite Qi. up. repeat split; try lia.
      -- intros x X1 X2 X3. up. reflexivity.
      -- intros i Hi X1 X2. up. reflexivity.
      -- intros x [->|[->| ->]]; up; lia.
Qed.
End Share.
