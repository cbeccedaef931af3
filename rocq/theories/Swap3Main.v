(** The swap of two tetrahedra into three. *)
From Coq Require Import ZArith List Lia Bool.
From Verif Require Import CBase Tet3Model Tet3Spec Tet3Proofs Tet3Pool Tet3Col Tet3Out Tet3Shell Tet3Tag Rewire Swap3Model Swap3Out Swap3Core Swap3Run Swap3Marks.
Import ListNotations.
Open Scope Z_scope.

Section Main.
Variable m : mesh.
Variable k j0 : Z.
Hypothesis C : conforming m.
Hypothesis O : oriented m.
Hypothesis Lk : live m k.
Hypothesis Lj : loc j0.
Hypothesis NZ : nb m k j0 <> 0.

Let k1 := nb m k j0 / 4.
Let j1 := nb m k j0 mod 4.
Let c0 := 3 * j0.
Let T : tables_ok m := proj1 C.
Let V : vertices_ok m := proj1 (proj2 C).
Let A : adjacent m := proj2 (proj2 C).

Lemma conf_ok : exists c1, swap_conf m k j0 = Ret (c0, nb m k j0, c1) /\ 0 <= c1 < 12 /\ tau c0 0 = j0 /\ tau c1 0 = j1 /\
  vtx m k1 (tau c1 1) = vtx m k (tau c0 1) /\ vtx m k1 (tau c1 3) = vtx m k (tau c0 2) /\ vtx m k1 (tau c1 2) = vtx m k (tau c0 3).
Proof.
  destruct (nb_dec m k j0 V A Lk Lj NZ) as (L1 & Lj1 & B & N & S). fold k1 in L1, B, N, S. fold j1 in Lj1, B, S.
  unfold swap_conf. rewrite get_adj_ok by (try assumption; apply live_intab; assumption). cbn [bind]. rewrite get_t_ok by (apply live_intab; assumption). cbn [bind].
  fold k1 j1. rewrite get_t_ok by (apply live_intab; assumption). cbn [bind].
  destruct (tau_at j0 0 Lj) as [Q0 Q1]; [lia|]. rewrite Z.add_0_r in Q0, Q1. fold c0 in Q0, Q1. change (Z.to_nat 0) with 0%nat in Q1.
  set (v := qv (aget (m_tet m) k) (nth 0 (idir j0) 0)).
  assert (Ev : v = vtx m k (tau c0 1)) by (rewrite Q1; reflexivity).
  assert (F : on_face m k1 j1 v).
  { apply S. apply fpts_ok; [exact Lj|]. unfold fpts. apply in_map. apply nth_In. rewrite idir_len by exact Lj. lia. }
  set (f := first _ _ _). destruct (first_spec (fun i => qv (aget (m_tet m) k1) (nth (Z.to_nat i) (idir j1) 0) =? v) [0; 1; 2] 3) as [(i & Ii & Ei & Ti)|[_ No]].
  2:{ exfalso. rewrite <- fpts_ok in F by exact Lj1. unfold fpts in F. apply in_map_iff in F. destruct F as (b & Eb & Ib).
      apply (In_nth _ _ 0) in Ib. destruct Ib as (n & Hn & En). rewrite idir_len in Hn by exact Lj1.
      assert (X : In (Z.of_nat n) [0; 1; 2]) by (cbn; lia). specialize (No _ X). cbv beta in No. rewrite Nat2Z.id, En in No. apply Z.eqb_neq in No. apply No. exact Eb. }
  fold f in Ei. rewrite Ei. assert (Hi : 0 <= i < 3) by (cbn in Ii; lia). rewrite (proj2 (Z.ltb_lt i 3) (proj2 Hi)). cbn [c_assert bind].
  exists (3 * j1 + i). split; [reflexivity|]. destruct (tau_at j1 i Lj1 Hi) as [R0 R1].
  assert (Hc : 0 <= 3 * j1 + i < 12) by (apply loc_le in Lj1; lia). assert (Hc0 : 0 <= c0 < 12) by (apply loc_le in Lj; unfold c0; lia).
  split; [exact Hc|]. split; [exact Q0|]. split; [exact R0|].
  apply Z.eqb_eq in Ti. cbv beta in Ti. rewrite <- R1 in Ti. fold (vtx m k1 (tau (3 * j1 + i) 1)) in Ti. rewrite Ev in Ti. split; [exact Ti|].
  pose proof (tau_even _ Hc0) as E0. pose proof (tau_even _ Hc) as E1. set (c1 := 3 * j1 + i) in *. clearbody c1.
  pose proof (O k j0 Lk Lj NZ) as R. fold k1 j1 in R. rewrite <- Q0, <- R0 in R.
  pose proof (fpts_even m k _ _ _ _ E0) as [F0 _]. pose proof (fpts_even m k1 _ _ _ _ E1) as [F1 _]. cbn zeta in F0, F1.
  pose proof (rot_trans _ _ _ (rot_sym _ _ (rot_rev _ _ F0)) (rot_trans _ _ _ R F1)) as RR. cbn [rev app rot] in RR.
  destruct E0 as ((a0 & a1 & a2 & a3) & (n1 & n2 & n3 & n4 & n5 & n6) & _). destruct (V k Lk) as [_ J].
  assert (D : forall x y, loc x -> loc y -> x <> y -> vtx m k x <> vtx m k y) by (intros x y Lx Ly N' E'; apply N', J; assumption).
  destruct RR as [E|[E|E]]; injection E as e1 e2 e3.
  - exfalso. apply (D _ _ a1 a3 n5). congruence.
  - exfalso. apply (D _ _ a1 a2 n4). congruence.
  - auto.
Qed.

Variable c1 : Z.
Hypothesis Hc1 : 0 <= c1 < 12.
Hypothesis Q0 : tau c0 0 = j0.
Hypothesis R0 : tau c1 0 = j1.
Hypothesis E1 : vtx m k1 (tau c1 1) = vtx m k (tau c0 1).
Hypothesis E3 : vtx m k1 (tau c1 3) = vtx m k (tau c0 2).
Hypothesis E2 : vtx m k1 (tau c1 2) = vtx m k (tau c0 3).
Let t0 := tau c0 0. Let t1 := tau c0 1. Let t2 := tau c0 2. Let t3 := tau c0 3.
Let s0 := tau c1 0. Let s1 := tau c1 1. Let s2 := tau c1 2. Let s3 := tau c1 3.
Let np := vtx m k1 s0.
Hypothesis NE : forall x, live m x -> has m x (vtx m k t0) -> has m x np -> False.
Let p0 := aget (m_tet m) k.
Let p1 := aget (m_tet m) k1.
Hypothesis XK : qxt p0 <> 0.
Hypothesis RF : qref p0 = qref p1.
Hypothesis XT : xt_ok m.

Lemma Ht : even4 t0 t1 t2 t3.
Proof. apply tau_even. apply loc_le in Lj. unfold c0. lia. Qed.
Lemma Hs : even4 s0 s1 s2 s3.
Proof. apply tau_even, Hc1. Qed.
Lemma Lk1 : live m k1.
Proof. apply (nb_dec m k j0 V A Lk Lj NZ). Qed.
Lemma Nk1 : k1 <> k.
Proof. apply (nb_dec m k j0 V A Lk Lj NZ). Qed.
Lemma EN : nb m k t0 = 4 * k1 + s0.
Proof. unfold t0, s0. rewrite Q0, R0. apply code_eta. Qed.

Definition ma := pt m k1 p0.
Lemma ma_live x : live ma x <-> live m x.
Proof.
  unfold live, ma, pt. cbn [m_tet p_tet alen aget]. unfold upd. destruct (Z.eqb_spec x k1) as [->|]; [|reflexivity].
  split; intros [H _]; (split; [exact H|]); [apply Lk1|apply Lk].
Qed.
Lemma ma_tables : tables_ok ma.
Proof.
  destruct T as (T1 & T2 & T3 & T4 & T5 & (fl & T6 & Fu) & T7 & NEQ).
  assert (Z : forall x, ~ live m x -> vtx ma x 3 = vtx m x 3).
  { intros x N. unfold vtx, ma, pt. cbn [m_tet p_tet aget]. rewrite upd_other; [reflexivity|]. intros ->. apply N, Lk1. }
  split; [exact T1|]. split; [exact T2|]. split; [exact T3|]. split; [|split; [|split; [|split; [exact T7|destruct NEQ as [Q|Q]; [left; exact Q|right; apply ma_live, Q]]]]].
  - change (m_nemax ma) with (m_nemax m). rewrite Z; [exact T4|]. intros H. apply T5 in H. lia.
  - intros x H. apply T5, ma_live, H.
  - exists fl. split; [|apply (full_frame m ma); [reflexivity|intros x; apply ma_live|exact Fu]]. apply (chain_frame m ma); [cbn; lia|intros x; apply ma_live|exact T6|]. intros x Ix. apply Z.
    clear - T6 Ix. induction T6; [destruct Ix|]. destruct Ix as [->|Ix]; auto.
Qed.

Lemma early mb tg rf : newElt_re ma = Ret (0, mb) -> swap23 m k c0 (nb m k j0) c1 tg rf = Ret (-1, mb).
Proof.
  intros EB. pose proof Lk1 as L1. pose proof (live_intab m k T Lk) as Ik. pose proof (live_intab m k1 T L1) as Ik1.
  unfold swap23. fold k1. rewrite get_t_ok by exact Ik. cbn [bind]. fold p0. rewrite (proj2 (Z.eqb_neq _ _) XK). cbn [negb c_assert bind].
  assert (k1 <> 0) by (apply live_pos in L1; lia). rewrite (proj2 (Z.eqb_neq k1 0)) by assumption. cbn [negb c_assert bind].
  rewrite get_t_ok by exact Ik1. cbn [bind]. fold p1. rewrite (proj2 (Z.eqb_eq _ _) RF). cbn [c_assert bind].
  rewrite set_t_ok by exact Ik1. cbn [bind]. fold ma. rewrite EB. reflexivity.
Qed.

Variable iel : Z.
Variable mb : mesh.
Hypothesis EB : newElt_re ma = Ret (iel, mb).
Hypothesis SL : same_live ma mb.
Hypothesis TB : tables_but mb iel.

Lemma mb_live x : live mb x <-> live m x.
Proof. destruct SL as (H & _). rewrite H. apply ma_live. Qed.
Lemma mb_tet x : live m x -> x <> k1 -> aget (m_tet mb) x = aget (m_tet m) x.
Proof.
  intros L N. destruct SL as (_ & _ & _ & _ & H & _). rewrite H by (apply ma_live, L). unfold ma, pt. cbn [m_tet p_tet aget]. apply upd_other, N.
Qed.
Lemma mb_k1 : aget (m_tet mb) k1 = p0.
Proof. destruct SL as (_ & _ & _ & _ & H & _). rewrite H by (apply ma_live, Lk1). unfold ma, pt. cbn [m_tet p_tet aget]. apply upd_same. Qed.
Lemma mb_nb x y : live m x -> loc y -> nb mb x y = nb m x y.
Proof. intros L Ly. destruct SL as (_ & _ & _ & _ & _ & H). rewrite H by (try assumption; apply ma_live, L). reflexivity. Qed.
Lemma mb_intab x : live m x -> intab mb x.
Proof. intros L. apply (tables_but_intab mb iel); [exact TB|]. apply mb_live, L. Qed.
Lemma mb_iel : intab mb iel.
Proof. destruct TB as (B1 & B2 & B3 & _ & _ & _ & _ & B8 & _). unfold intab. rewrite B1, B2. lia. Qed.
Lemma iel_dead : ~ live m iel.
Proof. rewrite <- mb_live. apply TB. Qed.
Lemma iel_k : iel <> k. Proof. intros E. apply iel_dead. rewrite E. exact Lk. Qed.
Lemma iel_k1 : iel <> k1. Proof. intros E. apply iel_dead. rewrite E. exact Lk1. Qed.
Lemma iel_pos : 1 <= iel. Proof. apply TB. Qed.

Let a02 := nb m k t2. Let a03 := nb m k t3. Let a11 := nb m k1 s1. Let a12 := nb m k1 s2. Let a13 := nb m k1 s3.
Definition me := core mb k k1 iel t0 t1 t2 t3 np p0 a02 a03 a11 a12 a13.

Lemma lt0 : loc t0. Proof. apply Ht. Qed.
Lemma lt1 : loc t1. Proof. apply Ht. Qed.
Lemma lt2 : loc t2. Proof. apply Ht. Qed.
Lemma lt3 : loc t3. Proof. apply Ht. Qed.
Lemma ls0 : loc s0. Proof. apply Hs. Qed.
Lemma ls1 : loc s1. Proof. apply Hs. Qed.
Lemma ls2 : loc s2. Proof. apply Hs. Qed.
Lemma ls3 : loc s3. Proof. apply Hs. Qed.

Lemma out_a a : (a = a02 \/ a = a03 \/ a = a11 \/ a = a12 \/ a = a13) -> a <> 0 -> live m (a / 4) /\ a / 4 <> k /\ a / 4 <> k1 /\ a / 4 <> iel.
Proof.
  pose proof lt0. pose proof lt1. pose proof lt2. pose proof lt3. pose proof ls0. pose proof ls1. pose proof ls2. pose proof ls3.
  pose proof Ht as (_ & (n1 & n2 & n3 & _) & _). pose proof Hs as (_ & (r1 & r2 & r3 & _) & _).
  assert (D : forall x, live m x -> x <> iel) by (intros x L E; apply iel_dead; rewrite <- E; exact L).
  assert (G0 : forall i, loc i -> i <> t0 -> nb m k i <> 0 -> live m (nb m k i / 4) /\ nb m k i / 4 <> k /\ nb m k i / 4 <> k1 /\ nb m k i / 4 <> iel).
  { intros i Hi N Z. destruct (nb_dec m k i V A Lk Hi Z) as (L & _). destruct (out_k m k k1 t0 t1 t2 t3 s0 s1 s2 s3 V A Lk Lk1 Ht Hs NE i Hi N Z) as [X1 X2]. auto. }
  assert (G1 : forall i, loc i -> i <> s0 -> nb m k1 i <> 0 -> live m (nb m k1 i / 4) /\ nb m k1 i / 4 <> k /\ nb m k1 i / 4 <> k1 /\ nb m k1 i / 4 <> iel).
  { intros i Hi N Z. destruct (nb_dec m k1 i V A Lk1 Hi Z) as (L & _). destruct (out_k1 m k k1 t0 t1 t2 t3 s0 s1 s2 s3 V A Lk Lk1 Ht Hs NE i Hi N Z) as [X1 X2]. auto. }
  intros [->|[->|[->|[->| ->]]]] Z; [apply G0|apply G0|apply G1|apply G1|apply G1]; auto.
Qed.

Lemma me_frame : same_frame mb me.
Proof. apply core_frame. Qed.

Lemma run_ok tg rf : swap23 m k c0 (nb m k j0) c1 tg rf =
  (let x0 := aget (m_xt m) (qxt p0) in let x1 := aget (m_xt m) (qxt p1) in
   share_x me k k1 iel (qxt p0) (qxt p1) (xt_0 c0 c1 tg rf x0 x1) (xt_1 c0 c1 tg rf x0 x1) (xt_2 c0 c1 tg rf x0 x1)).
Proof.
  pose proof Lk1 as L1. pose proof (live_intab m k T Lk) as Ik. pose proof (live_intab m k1 T L1) as Ik1.
  pose proof (mb_intab k Lk) as Jk. pose proof (mb_intab k1 L1) as Jk1. pose proof mb_iel as Ji.
  pose proof lt0. pose proof lt1. pose proof lt2. pose proof lt3. pose proof ls0. pose proof ls1. pose proof ls2. pose proof ls3.
  assert (OA : forall mm a, same_frame mb mm -> (a = a02 \/ a = a03 \/ a = a11 \/ a = a12 \/ a = a13) -> a <> 0 -> intab mm (a / 4)).
  { intros mm a Hf Ha Hz. apply (intab_frame mb mm _ Hf). apply mb_intab. apply (out_a a Ha Hz). }
  unfold swap23. fold k1. fold t0 t1 t2 t3 s0 s1 s2 s3.
  rewrite get_t_ok by exact Ik. cbn [bind]. fold p0. rewrite (proj2 (Z.eqb_neq _ _) XK). cbn [negb c_assert bind].
  assert (k1 <> 0) by (apply live_pos in L1; lia). rewrite (proj2 (Z.eqb_neq k1 0)) by assumption. cbn [negb c_assert bind].
  rewrite get_t_ok by exact Ik1. cbn [bind]. fold p1. rewrite (proj2 (Z.eqb_eq _ _) RF). cbn [c_assert bind].
  rewrite set_t_ok by exact Ik1. cbn [bind]. fold ma. rewrite EB. cbn [bind].
  assert (iel <> 0) by (pose proof iel_pos; lia). rewrite (proj2 (Z.eqb_neq iel 0)) by assumption.
  change (qv p1 s0) with np.
  rewrite set_t_ok by exact Ji. cbn [bind]. rewrite set_v_ok by exact Jk. cbn [bind]. rewrite set_v_ok by exact Jk1. cbn [bind]. rewrite set_v_ok by exact Ji. cbn [bind].
  assert (EX : m_xt mb = m_xt m) by (destruct SL as (_ & X & _); exact X).
  assert (GX : forall mm i, m_xt mm = m_xt m -> 0 <= i < alen (m_xt m) -> get_x mm i = Ret (aget (m_xt m) i)).
  { intros mm i Em Hi. unfold get_x. rewrite Em. apply rd_ok. exact Hi. }
  rewrite GX; [|exact EX|apply XT, Lk]. cbn [bind].
  do 5 (rewrite get_adj_ok by assumption; cbn [bind]). rewrite !nb_pv. change (nb (pt mb iel p0)) with (nb mb). rewrite !mb_nb by assumption. fold a02 a03 a11 a12 a13.
  set (m3 := pv (pv (pv (pt mb iel p0) k t1 np) k1 t2 np) iel t3 np).
  assert (F3 : same_frame mb m3) by (unfold m3; repeat (eapply frame_trans; [|apply frame_pv]); apply frame_pt).
  rewrite set_adj_ok by assumption. cbn [bind]. rewrite set_adj_ok by assumption. cbn [bind]. rewrite set_adj_ok by assumption. cbn [bind].
  set (m4 := pa (pa (pa m3 k t0 a11) k t2 (4 * k1 + t1)) k t3 (4 * iel + t1)).
  assert (F4 : same_frame mb m4) by (unfold m4; do 3 (eapply frame_trans; [|apply frame_pa]); exact F3).
  rewrite back_ok by (apply OA; auto). cbn [bind]. set (m5 := pb m4 a11 (4 * k + t0)).
  assert (F5 : same_frame mb m5) by (eapply frame_trans; [exact F4|apply frame_pb]).
  pose proof (intab_frame mb m5 k1 F5 Jk1) as J5. do 4 (rewrite set_adj_ok by assumption; cbn [bind]).
  set (m6 := pa (pa (pa (pa m5 k1 t0 a13) k1 t1 (4 * k + t2)) k1 t2 a02) k1 t3 (4 * iel + t2)).
  assert (F6 : same_frame mb m6) by (unfold m6; do 4 (eapply frame_trans; [|apply frame_pa]); exact F5).
  rewrite back_ok by (apply OA; auto 10). cbn [bind]. set (m7 := pb m6 a13 (4 * k1 + t0)).
  assert (F7 : same_frame mb m7) by (eapply frame_trans; [exact F6|apply frame_pb]).
  rewrite back_ok by (apply OA; auto 10). cbn [bind]. set (m8 := pb m7 a02 (4 * k1 + t2)).
  assert (F8 : same_frame mb m8) by (eapply frame_trans; [exact F7|apply frame_pb]).
  pose proof (intab_frame mb m8 iel F8 Ji) as J8. do 4 (rewrite set_adj_ok by assumption; cbn [bind]).
  set (m9 := pa (pa (pa (pa m8 iel t0 a12) iel t1 (4 * k + t3)) iel t2 (4 * k1 + t3)) iel t3 a03).
  assert (F9 : same_frame mb m9) by (unfold m9; do 4 (eapply frame_trans; [|apply frame_pa]); exact F8).
  rewrite back_ok by (apply OA; auto 10). cbn [bind]. set (m10 := pb m9 a12 (4 * iel + t0)).
  assert (F10 : same_frame mb m10) by (eapply frame_trans; [exact F9|apply frame_pb]).
  rewrite back_ok by (apply OA; auto 10). cbn [bind]. change (pb m10 a03 (4 * iel + t3)) with me.
  rewrite GX; [reflexivity| |apply XT, L1]. destruct me_frame as (_ & _ & X & _). rewrite X. exact EX.
Qed.

(** The tables after the writes. *)
Lemma me_k : aget (m_tet me) k = put p0 t1 np.
Proof. unfold me. rewrite core_tet by (apply Nk1 || apply iel_k || apply iel_k1). rewrite Z.eqb_refl, (mb_tet k Lk (not_eq_sym Nk1)). reflexivity. Qed.
Lemma me_k1 : aget (m_tet me) k1 = put p0 t2 np.
Proof. unfold me. rewrite core_tet by (apply Nk1 || apply iel_k || apply iel_k1). rewrite (proj2 (Z.eqb_neq _ _) Nk1), Z.eqb_refl, mb_k1. reflexivity. Qed.
Lemma me_iel : aget (m_tet me) iel = put p0 t3 np.
Proof. unfold me. rewrite core_tet by (apply Nk1 || apply iel_k || apply iel_k1). rewrite (proj2 (Z.eqb_neq _ _) iel_k), (proj2 (Z.eqb_neq _ _) iel_k1), Z.eqb_refl. reflexivity. Qed.
Lemma me_other x : x <> k -> x <> k1 -> x <> iel -> aget (m_tet me) x = aget (m_tet mb) x.
Proof. intros X1 X2 X3. unfold me. rewrite core_tet by (apply Nk1 || apply iel_k || apply iel_k1). rewrite !(proj2 (Z.eqb_neq _ _)) by assumption. reflexivity. Qed.

Lemma put_same t i x : qv (put t i x) i = x.
Proof. unfold put. cbn. apply upd_same. Qed.
Lemma put_other t i x j : j <> i -> qv (put t i x) j = qv t j.
Proof. intros. unfold put. cbn. apply upd_other. assumption. Qed.

Lemma me_vk : vtx me k t0 = vtx m k t0 /\ vtx me k t1 = np /\ vtx me k t2 = vtx m k t2 /\ vtx me k t3 = vtx m k t3.
Proof. unfold vtx. rewrite me_k. pose proof Ht as (_ & (n1 & n2 & n3 & n4 & n5 & n6) & _). rewrite put_same, !put_other by auto. auto. Qed.
Lemma me_vk1 : vtx me k1 t0 = vtx m k t0 /\ vtx me k1 t1 = vtx m k t1 /\ vtx me k1 t2 = np /\ vtx me k1 t3 = vtx m k t3.
Proof. unfold vtx. rewrite me_k1. pose proof Ht as (_ & (n1 & n2 & n3 & n4 & n5 & n6) & _). rewrite put_same, !put_other by auto. auto. Qed.
Lemma me_viel : vtx me iel t0 = vtx m k t0 /\ vtx me iel t1 = vtx m k t1 /\ vtx me iel t2 = vtx m k t2 /\ vtx me iel t3 = np.
Proof. unfold vtx. rewrite me_iel. pose proof Ht as (_ & (n1 & n2 & n3 & n4 & n5 & n6) & _). rewrite put_same, !put_other by auto. auto. Qed.

Lemma me_live x : live me x <-> live m x \/ x = iel.
Proof.
  assert (AL : alen (m_tet me) = alen (m_tet mb)) by apply me_frame.
  destruct (V k Lk) as [Pk _]. destruct (V k1 Lk1) as [Pk1 _]. assert (Pn : 0 < np) by (apply Pk1, ls0).
  assert (P : forall i, 0 < qv (put p0 i np) 0).
  { intros i. unfold put. cbn. unfold upd. destruct (0 =? i); [exact Pn|]. apply Lk. }
  assert (IT : forall y, intab mb y -> 1 <= y < alen (m_tet mb)) by (intros y (I1 & I2 & _); lia).
  destruct (Z.eq_dec x k) as [->|N1].
  - split; [left; exact Lk|]. intros _. split; [rewrite AL; apply IT, mb_intab, Lk|]. rewrite me_k. apply P.
  - destruct (Z.eq_dec x k1) as [E|N2].
    + rewrite E. split; [left; exact Lk1|]. intros _. split; [rewrite AL; apply IT, mb_intab, Lk1|]. rewrite me_k1. apply P.
    + destruct (Z.eq_dec x iel) as [->|N3].
      * split; [auto|]. intros _. split; [rewrite AL; apply IT, mb_iel|]. rewrite me_iel. apply P.
      * rewrite <- (mb_live x). unfold live. rewrite AL, me_other by assumption. tauto.
Qed.

Lemma me_tables : tables_ok me.
Proof.
  apply (tables_use mb me iel me_frame); [intros x; rewrite mb_live; apply me_live| |exact TB].
  intros x N X. unfold vtx. rewrite me_other; [reflexivity| | |exact X]; intros E; apply N, mb_live; rewrite E; [exact Lk|exact Lk1].
Qed.

Lemma me_v x y : live m x -> x <> k -> x <> k1 -> vtx me x y = vtx m x y.
Proof. intros L X1 X2. unfold vtx. rewrite me_other, mb_tet; auto. intros E. apply iel_dead. rewrite <- E. exact L. Qed.

Lemma me_rows :
  (nb me k t0 = a11 /\ nb me k t1 = nb m k t1 /\ nb me k t2 = 4 * k1 + t1 /\ nb me k t3 = 4 * iel + t1) /\
  (nb me k1 t0 = a13 /\ nb me k1 t1 = 4 * k + t2 /\ nb me k1 t2 = a02 /\ nb me k1 t3 = 4 * iel + t2) /\
  (nb me iel t0 = a12 /\ nb me iel t1 = 4 * k + t3 /\ nb me iel t2 = 4 * k1 + t3 /\ nb me iel t3 = a03).
Proof.
  pose proof (core_rows mb k k1 iel t0 t1 t2 t3 np p0 a02 a03 a11 a12 a13 Ht Nk1 iel_k iel_k1) as H. rewrite (mb_nb k t1 Lk lt1) in H. apply H.
  intros a Ha Hz. destruct (out_a a Ha Hz) as (_ & X). exact X.
Qed.

(** The back links. *)
Lemma link x i c : live m x -> loc i -> slot m c -> (negb (nb m x i =? 0) && (c =? nb m x i)) = (nbc m c =? 4 * x + i).
Proof.
  intros L Hi Sc. destruct (Z.eqb_spec (nbc m c) (4 * x + i)) as [E|N].
  - assert (NZc : nbc m c <> 0) by (rewrite E; apply enc_pos; [apply (live_pos m), L|exact Hi]).
    destruct (nbc_sym m c V A Sc NZc) as (_ & B & _). rewrite E, nbc_at in B by exact Hi. rewrite B, Z.eqb_refl. rewrite (proj2 (Z.eqb_neq c 0) (slot_nz m c Sc)). reflexivity.
  - destruct (Z.eqb_spec (nb m x i) 0) as [|NZx]; [reflexivity|]. cbn. apply Z.eqb_neq. intros E. apply N.
    assert (Sx : slot m (4 * x + i)) by (apply slot_at; assumption). rewrite <- (nbc_at m x i Hi) in NZx, E.
    destruct (nbc_sym m _ V A Sx NZx) as (_ & B & _). rewrite E. exact B.
Qed.

Lemma me_n x y : live m x -> x <> k -> x <> k1 -> loc y -> nb me x y = phi k k1 iel t0 t2 t3 s1 s2 s3 (nb m x y).
Proof.
  intros L X1 X2 Ly. assert (X3 : x <> iel) by (intros E; apply iel_dead; rewrite <- E; exact L).
  pose proof lt0. pose proof lt1. pose proof lt2. pose proof lt3. pose proof ls0. pose proof ls1. pose proof ls2. pose proof ls3. pose proof Lk1 as L1.
  rewrite <- (nbc_at me x y Ly). unfold me. rewrite (core_nbc mb k k1 iel t0 t1 t2 t3 np p0 a02 a03 a11 a12 a13 Ht).
  assert (Sc : slot m (4 * x + y)) by (apply slot_at; assumption).
  unfold a02, a03, a11, a12, a13. rewrite !link by assumption.
  rewrite !cneq by (try assumption; left; assumption).
  rewrite (nbc_at mb x y Ly), (nbc_at m x y Ly), (mb_nb x y L Ly). set (z := nb m x y). unfold phi.
  pose proof Ht as (_ & (n1 & n2 & n3 & n4 & n5 & n6) & _). pose proof Hs as (_ & (r1 & r2 & r3 & r4 & r5 & r6) & _). pose proof Nk1 as NK.
  assert (D : forall u i w j, loc i -> loc j -> (u <> w \/ i <> j) -> z = 4 * u + i -> (z =? 4 * w + j) = false).
  { intros u i w j Hi Hj HN ->. apply cneq; assumption. }
  destruct (Z.eqb_spec z (4 * k + t2)) as [E|N2].
  - rewrite (D k t2 k t3), (D k t2 k1 s2); auto.
  - destruct (Z.eqb_spec z (4 * k + t3)) as [E|N3].
    + reflexivity.
    + destruct (Z.eqb_spec z (4 * k1 + s1)) as [E|M1].
      * rewrite (D k1 s1 k1 s2), (D k1 s1 k1 s3); auto.
      * destruct (Z.eqb_spec z (4 * k1 + s3)) as [E|M3]; [|reflexivity]. rewrite (D k1 s3 k1 s2); auto.
Qed.

Lemma me_conforming : conforming me.
Proof.
  destruct me_rows as (R1 & R2 & R3). split; [exact me_tables|]. split.
  - apply (V' m me k k1 iel t0 t1 t2 t3 s0 s1 s2 s3); auto using me_live, me_vk, me_vk1, me_viel, Ht, Hs, Lk1, iel_dead.
    intros x y L N1 N2 _. apply me_v; assumption.
  - apply (swap_adjacent m me k k1 iel t0 t1 t2 t3 s0 s1 s2 s3); auto using me_live, me_vk, me_vk1, me_viel, Ht, Hs, Lk1, iel_dead, EN, me_n.
    intros x y L N1 N2 _. apply me_v; assumption.
Qed.
Lemma me_oriented : oriented me.
Proof.
  destruct me_rows as (R1 & R2 & R3).
  apply (swap_oriented m me k k1 iel t0 t1 t2 t3 s0 s1 s2 s3); auto using me_live, me_vk, me_vk1, me_viel, Ht, Hs, Lk1, iel_dead, EN, me_n.
  intros x y L N1 N2 _. apply me_v; assumption.
Qed.
(** ** The boundary tetrahedra *)

Hypothesis XN : 0 <= m_nxt m < alen (m_xt m).
Hypothesis X1 : forall x, live m x -> 0 <= qxt (aget (m_tet m) x) <= m_nxt m.
Hypothesis XO : xt_own m.
Hypothesis XG : forall g, In g (m_xgaps m) -> 1 <= g.
Hypothesis X0 : forall i, loc i -> fm (aget (m_xt m) 0) i = (0, 0).
Variable tg rf : Z -> Z.
Let x0 := aget (m_xt m) (qxt p0).
Let x1 := aget (m_xt m) (qxt p1).
Let xa := xt_0 c0 c1 tg rf x0 x1.
Let xb := xt_1 c0 c1 tg rf x0 x1.
Let xc := xt_2 c0 c1 tg rf x0 x1.
Hypothesis TWO : exists i j, loc i /\ loc j /\ i <> j /\ i <> j0 /\ j <> j0 /\ mark m k i <> (0, 0) /\ mark m k j <> (0, 0).

Lemma Hc0 : 0 <= c0 < 12.
Proof. apply loc_le in Lj. unfold c0. lia. Qed.
Lemma mk_k i : mark m k i = fm x0 i.
Proof. unfold mark. fold p0. rewrite (proj2 (Z.eqb_neq _ _) XK). reflexivity. Qed.
Lemma mk_k1 i : loc i -> mark m k1 i = fm x1 i.
Proof.
  intros Hi. unfold mark. fold p1. destruct (Z.eqb_spec (qxt p1) 0) as [E|]; [|reflexivity]. unfold x1. rewrite E. symmetry. apply X0, Hi.
Qed.

Lemma two_x : (isx xa && isx xb) || (isx xb && isx xc) || (isx xc && isx xa) = true.
Proof.
  destruct (fa c0 c1 Hc0 tg rf x0 x1) as (_ & A1 & _). destruct (fb c0 c1 Hc0 tg rf x0 x1) as (_ & _ & B2 & _). destruct (fcc c0 c1 Hc0 tg rf x0 x1) as (_ & _ & _ & C3).
  fold xa t1 in A1. fold xb t2 in B2. fold xc t3 in C3.
  assert (Ia : fm x0 t1 <> (0, 0) -> isx xa = true) by (intros N; apply isx_ok; exists t1; split; [exact lt1|rewrite A1; exact N]).
  assert (Ib : fm x0 t2 <> (0, 0) -> isx xb = true) by (intros N; apply isx_ok; exists t2; split; [exact lt2|rewrite B2; exact N]).
  assert (Ic : fm x0 t3 <> (0, 0) -> isx xc = true) by (intros N; apply isx_ok; exists t3; split; [exact lt3|rewrite C3; exact N]).
  destruct TWO as (i & j & Hi & Hj & N & Ni & Nj & Mi & Mj). rewrite !mk_k in Mi, Mj. rewrite <- Q0 in Ni, Nj. fold t0 in Ni, Nj.
  destruct (even_all _ _ _ _ i Ht Hi) as [->|[->|[->| ->]]], (even_all _ _ _ _ j Ht Hj) as [->|[->|[->| ->]]]; try contradiction;
    repeat match goal with H : fm x0 t1 <> _ |- _ => apply Ia in H; rewrite H; clear H | H : fm x0 t2 <> _ |- _ => apply Ib in H; rewrite H; clear H | H : fm x0 t3 <> _ |- _ => apply Ic in H; rewrite H; clear H end;
    repeat rewrite ?andb_true_r, ?orb_true_r; reflexivity.
Qed.

Lemma me_xt : m_xt me = m_xt m /\ m_nxt me = m_nxt m /\ m_xgaps me = m_xgaps m.
Proof.
  destruct me_frame as (_ & _ & A1 & _ & _ & _ & _ & A2 & _ & A3). destruct SL as (_ & B1 & B2 & B3 & _). rewrite A1, A2, A3, B1, B2, B3. auto.
Qed.
Lemma but_x_refl y : but_x y y.
Proof. repeat split. Qed.

Let q (x : Z) := qxt (aget (m_tet me) x).
Lemma st0 : ST me me q (m_nxt m) (aget (m_xt m)).
Proof.
  destruct me_xt as (A1 & A2 & A3). split; [apply but_x_refl|]. split; [reflexivity|]. split; [exact A2|]. rewrite A1, A3. split; [exact XN|]. split; [lia|]. split; [reflexivity|exact XG].
Qed.
Lemma q_k : q k = qxt p0. Proof. unfold q. rewrite me_k. reflexivity. Qed.
Lemma q_iel : q iel = qxt p0. Proof. unfold q. rewrite me_iel. reflexivity. Qed.
Lemma q_o x : live m x -> x <> k -> x <> k1 -> q x = qxt (aget (m_tet m) x).
Proof. intros L N1 N2. unfold q. rewrite me_other, mb_tet; auto. intros E. apply iel_dead. rewrite <- E. exact L. Qed.
Lemma own_k x : live m x -> x <> k -> qxt (aget (m_tet m) x) <> qxt p0.
Proof. intros L N E. apply N. apply (XO x k L Lk); [exact E|]. rewrite E. exact XK. Qed.
Lemma own_k1 x : live m x -> x <> k1 -> qxt (aget (m_tet m) x) <> qxt p1 \/ qxt (aget (m_tet m) x) = 0.
Proof. intros L N. destruct (Z.eq_dec (qxt (aget (m_tet m) x)) 0) as [|NZx]; [auto|left]. intros E. apply N. apply (XO x k1 L Lk1 E NZx). Qed.

Lemma me_intab x : intab mb x -> intab me x.
Proof. apply intab_frame, me_frame. Qed.

Lemma final : exists r m', swap23 m k c0 (nb m k j0) c1 tg rf = Ret (r, m') /\ but_x me m' /\
  ((r = -1 /\ alen (m_xt m) <= m_nxt m + 2) \/ (r = 1 /\ shared me k k1 iel (qxt p0) (qxt p1) (m_nxt m) q (aget (m_xt m)) xa xb xc m')).
Proof.
  rewrite run_ok. cbn zeta. fold x0 x1. fold xa xb xc.
  destruct (share_ok me k k1 iel (qxt p0) (qxt p1) (m_nxt m) q (aget (m_xt m)) xa xb xc st0) as (r & m' & E & B & H); auto using me_intab, mb_intab, mb_iel, Lk1, Nk1, iel_k, iel_k1, q_k, q_iel, two_x.
  - pose proof (X1 k Lk). fold p0 in H. lia.
  - apply (X1 k1 Lk1).
  - apply (own_k k1 Lk1 Nk1).
  - destruct me_xt as (A1 & _). rewrite A1 in H. exists r, m'. auto.
Qed.

Variable m' : mesh.
Hypothesis BX : but_x me m'.
Hypothesis SH : shared me k k1 iel (qxt p0) (qxt p1) (m_nxt m) q (aget (m_xt m)) xa xb xc m'.

Lemma fin_conforming : conforming m' /\ oriented m'.
Proof. split; [apply (bx_conforming me m' BX), me_conforming|apply (bx_oriented me m' BX), me_oriented]. Qed.
Lemma fin_live x : live m' x <-> live m x \/ x = iel.
Proof. rewrite (bx_live me m' x BX). apply me_live. Qed.
Lemma fin_vk : vtx m' k t0 = vtx m k t0 /\ vtx m' k t1 = np /\ vtx m' k t2 = vtx m k t2 /\ vtx m' k t3 = vtx m k t3.
Proof. rewrite !(bx_vtx me m') by exact BX. exact me_vk. Qed.
Lemma fin_vk1 : vtx m' k1 t0 = vtx m k t0 /\ vtx m' k1 t1 = vtx m k t1 /\ vtx m' k1 t2 = np /\ vtx m' k1 t3 = vtx m k t3.
Proof. rewrite !(bx_vtx me m') by exact BX. exact me_vk1. Qed.
Lemma fin_viel : vtx m' iel t0 = vtx m k t0 /\ vtx m' iel t1 = vtx m k t1 /\ vtx m' iel t2 = vtx m k t2 /\ vtx m' iel t3 = np.
Proof. rewrite !(bx_vtx me m') by exact BX. exact me_viel. Qed.
Lemma fin_other x : live m x -> x <> k -> x <> k1 -> aget (m_tet m') x = aget (m_tet m) x /\
  (qxt (aget (m_tet m) x) <> 0 -> aget (m_xt m') (qxt (aget (m_tet m) x)) = aget (m_xt m) (qxt (aget (m_tet m) x))).
Proof.
  intros L N1 N2. assert (N3 : x <> iel) by (intros E; apply iel_dead; rewrite <- E; exact L).
  destruct SH as (q' & n' & X' & S & Hn & _ & _ & _ & Ho & Hx & _). destruct S as (_ & Q & _ & _ & _ & XX & _).
  destruct BX as (_ & _ & _ & _ & _ & _ & _ & B). destruct (B x) as (B1 & B2 & B3 & B4).
  assert (Eq : qxt (aget (m_tet m') x) = qxt (aget (m_tet m) x)) by (rewrite Q, Ho by assumption; apply q_o; assumption).
  rewrite me_other, mb_tet in B1, B2, B3, B4 by assumption. split.
  - destruct (aget (m_tet m') x), (aget (m_tet m) x). cbn in *. congruence.
  - intros NX. pose proof (X1 x L) as R. rewrite XX by lia. apply Hx; [exact R|apply own_k; assumption|]. destruct (own_k1 x L N2); [left; assumption|contradiction].
Qed.
Lemma fin_mark_o x i : live m x -> x <> k -> x <> k1 -> mark m' x i = mark m x i.
Proof.
  intros L N1 N2. destruct (fin_other x L N1 N2) as [E F]. unfold mark. rewrite E. destruct (Z.eqb_spec (qxt (aget (m_tet m) x)) 0) as [|NX]; [reflexivity|]. rewrite (F NX). reflexivity.
Qed.
Lemma fin_refs : qref (aget (m_tet m') k) = qref p0 /\ qref (aget (m_tet m') k1) = qref p0 /\ qref (aget (m_tet m') iel) = qref p0.
Proof.
  destruct BX as (_ & _ & _ & _ & _ & _ & _ & B). destruct (B k) as (_ & -> & _), (B k1) as (_ & -> & _), (B iel) as (_ & -> & _). rewrite me_k, me_k1, me_iel. auto.
Qed.
Lemma fin_marks :
  (mark m' k t0 = mark m k1 s1 /\ mark m' k t1 = mark m k t1 /\ mark m' k t2 = (0, 0) /\ mark m' k t3 = (0, 0)) /\
  (mark m' k1 t0 = mark m k1 s3 /\ mark m' k1 t1 = (0, 0) /\ mark m' k1 t2 = mark m k t2 /\ mark m' k1 t3 = (0, 0)) /\
  (mark m' iel t0 = mark m k1 s2 /\ mark m' iel t1 = (0, 0) /\ mark m' iel t2 = (0, 0) /\ mark m' iel t3 = mark m k t3).
Proof.
  destruct SH as (q' & n' & X' & S & Hn & Ga & Gb & Gc & _).
  pose proof lt0. pose proof lt1. pose proof lt2. pose proof lt3. pose proof ls1. pose proof ls2. pose proof ls3.
  rewrite !(gets_mark _ _ _ _ _ _ _ _ S Ga), !(gets_mark _ _ _ _ _ _ _ _ S Gb), !(gets_mark _ _ _ _ _ _ _ _ S Gc) by assumption.
  rewrite !mk_k, !mk_k1 by assumption. split; [apply (fa c0 c1 Hc0 tg rf)|]. split; [apply (fb c0 c1 Hc0 tg rf)|apply (fcc c0 c1 Hc0 tg rf)].
Qed.

Lemma fin_faces x i : live m' x -> loc i ->
  (exists y j, live m y /\ loc j /\ (forall z, on_face m' x i z <-> on_face m y j z) /\ mark m' x i = mark m y j /\ (y = k \/ y = k1 \/ y = x)) \/
  (on_face m' x i (vtx m k j0) /\ on_face m' x i np /\ mark m' x i = (0, 0)).
Proof.
  intros Lx Hi. pose proof lt0. pose proof lt1. pose proof lt2. pose proof lt3. pose proof ls0. pose proof ls1. pose proof ls2. pose proof ls3. pose proof Lk1 as L1.
  destruct fin_marks as ((M0 & M1 & M2 & M3) & (N0 & N1 & N2 & N3) & (P0 & P1 & P2 & P3)).
  destruct me_rows as (R1 & R2 & R3).
  assert (Sx : slot me (4 * x + i)) by (apply slot_at; [exact Hi|]; apply (bx_live me m' x BX), Lx).
  destruct (phi_onto m me k k1 iel t0 t1 t2 t3 s0 s1 s2 s3 V A Lk L1 Ht Hs EN me_live me_vk me_vk1 me_viel R1 R2 R3 (4 * x + i) Sx) as [(c & Sc & Kc & E)|Hin].
  - left. exists (c / 4), (c mod 4). split; [exact Sc|]. split; [apply loc_mod|]. split.
    + intros z. rewrite (bx_face me m' x i z BX), <- (fc_at me x i z Hi), E.
      apply rot_fc. apply (phi_face m me k k1 iel t0 t1 t2 t3 s0 s1 s2 s3 V A Lk L1 Ht Hs EN E1 E3 E2); auto using me_vk, me_vk1, me_viel.
      intros; apply me_v; assumption.
    + destruct (keep_cases m k k1 t0 t1 t2 t3 s0 s1 s2 s3 Ht Hs c Sc Kc) as [Ec|[Ec|[Ec|[Ec|[Ec|[Ec|[Ec1 Ec2]]]]]]].
      * rewrite Ec in E. rewrite (phi_K1 m k k1 iel t0 t1 t2 t3 s0 s1 s2 s3 V A Lk L1 Ht Hs EN) in E. apply code_eq in E; [|assumption|assumption]. destruct E as [-> ->].
        rewrite Ec, dec_div, dec_mod by assumption. split; [exact M1|auto].
      * rewrite Ec in E. unfold phi in E. rewrite Z.eqb_refl in E. apply code_eq in E; [|assumption|assumption]. destruct E as [-> ->].
        rewrite Ec, dec_div, dec_mod by assumption. split; [exact N2|auto].
      * rewrite Ec in E. rewrite (phi_K3 k k1 iel t0 t1 t2 t3 s1 s2 s3 Ht) in E. apply code_eq in E; [|assumption|assumption]. destruct E as [-> ->].
        rewrite Ec, dec_div, dec_mod by assumption. split; [exact P3|auto].
      * rewrite Ec in E. rewrite (phi_S1 m k k1 iel t0 t1 t2 t3 s0 s1 s2 s3 V A Lk L1 Ht Hs EN) in E. apply code_eq in E; [|assumption|assumption]. destruct E as [-> ->].
        rewrite Ec, dec_div, dec_mod by assumption. split; [exact M0|auto].
      * rewrite Ec in E. rewrite (phi_S2 m k k1 iel t0 t1 t2 t3 s0 s1 s2 s3 V A Lk L1 Ht Hs EN) in E. apply code_eq in E; [|assumption|assumption]. destruct E as [-> ->].
        rewrite Ec, dec_div, dec_mod by assumption. split; [exact P0|auto].
      * rewrite Ec in E. rewrite (phi_S3 m k k1 iel t0 t1 t2 t3 s0 s1 s2 s3 V A Lk L1 Ht Hs EN) in E. apply code_eq in E; [|assumption|assumption]. destruct E as [-> ->].
        rewrite Ec, dec_div, dec_mod by assumption. split; [exact N0|auto].
      * rewrite (phi_out k k1 iel t0 t1 t2 t3 s0 s1 s2 s3 Ht Hs c Ec1 Ec2) in E. subst c. rewrite dec_div, dec_mod in * by exact Hi. split; [|auto]. apply fin_mark_o; [|assumption|assumption]. apply (slot_at m x i Hi), Sc.
  - right.
    assert (PP : on_face me x i (vtx m k t0) /\ on_face me x i np).
    { destruct (inner_pts m me k k1 iel t0 t1 t2 t3 s0 s1 s2 s3 V A Lk L1 iel_dead Ht Hs EN me_live me_vk me_vk1 me_viel R1 R2 R3 (4 * x + i) 0 Hin) as (F1 & F2 & _).
      rewrite fc_at in F1, F2 by exact Hi. auto. }
    rewrite !(bx_face me m') by exact BX. unfold t0 in PP at 1. rewrite Q0 in PP. split; [apply PP|]. split; [apply PP|].
    destruct Hin as [E|[E|[E|[E|[E|E]]]]]; apply code_eq in E; try assumption; destruct E as [-> ->]; assumption.
Qed.

(** The edges of the three tetrahedra. *)
Lemma fin_edges x e : (x = k \/ x = k1 \/ x = iel) -> 0 <= e <= 5 -> qxt (aget (m_tet m') x) <> 0 ->
  (ends m' x e (vtx m k j0) np /\ etag m' x e = (0, 0)) \/
  (exists g, 0 <= g <= 5 /\ (forall a b, ends m' x e a b <-> ends m k1 g a b) /\ etag m' x e = (tg g, rf g)) \/
  (exists g, 0 <= g <= 5 /\ (exists b, ends m k g (vtx m k j0) b) /\ (forall a b, ends m' x e a b <-> ends m k g a b) /\ etag m' x e = etag m k g).
Proof.
  intros Hx He NX. pose proof Hc0 as H0.
  assert (W1 : vtx m k1 s1 = vtx m k t1) by exact E1. assert (W2 : vtx m k1 s2 = vtx m k t3) by exact E2. assert (W3 : vtx m k1 s3 = vtx m k t2) by exact E3.
  assert (EK : forall f, etag m k f = em x0 f) by (intros f; unfold etag; fold p0; rewrite (proj2 (Z.eqb_neq _ _) XK); reflexivity).
  assert (G1 : forall f g, 0 <= f <= 5 -> 0 <= g <= 5 -> (forall a b, ends m' x (taued c0 f) a b <-> ends m k1 (taued c1 g) a b) -> etag m' x (taued c0 f) = (tg (taued c1 g), rf (taued c1 g)) ->
    exists g, 0 <= g <= 5 /\ (forall a b, ends m' x (taued c0 f) a b <-> ends m k1 g a b) /\ etag m' x (taued c0 f) = (tg g, rf g)).
  { intros f g Hf Hg Z1 Z2. exists (taued c1 g). split; [apply (taued_cases c1 Hc1 g Hg)|]. auto. }
  assert (G2 : forall f, 0 <= f <= 2 -> (forall a b, ends m' x (taued c0 f) a b <-> ends m k (taued c0 f) a b) -> etag m' x (taued c0 f) = em x0 (taued c0 f) ->
    exists g, 0 <= g <= 5 /\ (exists b, ends m k g (vtx m k j0) b) /\ (forall a b, ends m' x (taued c0 f) a b <-> ends m k g a b) /\ etag m' x (taued c0 f) = etag m k g).
  { intros f Hf Z1 Z2. exists (taued c0 f). split; [apply (taued_cases c0 H0 f); lia|]. split; [|split; [exact Z1|rewrite EK; exact Z2]].
    exists (vtx m k (tau c0 (snd (iare f)))). apply (ends_taued m k c0 f); [exact H0|lia|]. left. split; [|reflexivity]. rewrite <- Q0.
    assert (f = 0 \/ f = 1 \/ f = 2) as [->|[->| ->]] by lia; reflexivity. }
  destruct SH as (q' & n' & X' & S & Hn & Ga & Gb & Gc & _).
  destruct Hx as [->|[->| ->]].
  - destruct fin_vk as (v0 & v1 & v2 & v3). pose proof (fun f => gets_etag _ _ _ _ _ _ _ f S Ga NX) as EM. destruct (ea c0 c1 H0 tg rf x0 x1) as (e0 & e1 & e2 & e3 & e4 & e5). fold xa in e0, e1, e2, e3, e4, e5.
    destruct (taued_onto c0 H0 e He) as [->|[->|[->|[->|[->| ->]]]]]; rewrite EM.
    + left. split; [|exact e0]. apply ends_taued; [exact H0|lia|]. left. change (vtx m' k t0 = vtx m k j0 /\ vtx m' k t1 = np). rewrite v0, v1. unfold t0. rewrite Q0. auto.
    + right. right. rewrite <- EM. apply G2; [lia| |rewrite EM; exact e1]. intros a b. rewrite !ends_taued by (exact H0 || lia). change (iare 1) with (0, 2). cbn [fst snd]. fold t0 t2. rewrite v0, v2. tauto.
    + right. right. rewrite <- EM. apply G2; [lia| |rewrite EM; exact e2]. intros a b. rewrite !ends_taued by (exact H0 || lia). change (iare 2) with (0, 3). cbn [fst snd]. fold t0 t3. rewrite v0, v3. tauto.
    + right. left. rewrite <- EM. apply (G1 3 2); [lia|lia| |rewrite EM; exact e3]. intros a b. rewrite !ends_taued by (exact H0 || exact Hc1 || lia). change (iare 3) with (1, 2). change (iare 2) with (0, 3). cbn [fst snd]. fold t1 t2 s0 s3. fold np. rewrite v1, v2, W3. tauto.
    + right. left. rewrite <- EM. apply (G1 4 1); [lia|lia| |rewrite EM; exact e4]. intros a b. rewrite !ends_taued by (exact H0 || exact Hc1 || lia). change (iare 4) with (1, 3). change (iare 1) with (0, 2). cbn [fst snd]. fold t1 t3 s0 s2. fold np. rewrite v1, v3, W2. tauto.
    + right. left. rewrite <- EM. apply (G1 5 5); [lia|lia| |rewrite EM; exact e5]. intros a b. rewrite !ends_taued by (exact H0 || exact Hc1 || lia). change (iare 5) with (2, 3). cbn [fst snd]. fold t2 t3 s2 s3. rewrite v2, v3, W2, W3. tauto.
  - destruct fin_vk1 as (v0 & v1 & v2 & v3). pose proof (fun f => gets_etag _ _ _ _ _ _ _ f S Gb NX) as EM. destruct (eb c0 c1 H0 tg rf x0 x1) as (e0 & e1 & e2 & e3 & e4 & e5). fold xb in e0, e1, e2, e3, e4, e5.
    destruct (taued_onto c0 H0 e He) as [->|[->|[->|[->|[->| ->]]]]]; rewrite EM.
    + right. right. rewrite <- EM. apply G2; [lia| |rewrite EM; exact e0]. intros a b. rewrite !ends_taued by (exact H0 || lia). change (iare 0) with (0, 1). cbn [fst snd]. fold t0 t1. rewrite v0, v1. tauto.
    + left. split; [|exact e1]. apply ends_taued; [exact H0|lia|]. left. change (vtx m' k1 t0 = vtx m k j0 /\ vtx m' k1 t2 = np). rewrite v0, v2. unfold t0. rewrite Q0. auto.
    + right. right. rewrite <- EM. apply G2; [lia| |rewrite EM; exact e2]. intros a b. rewrite !ends_taued by (exact H0 || lia). change (iare 2) with (0, 3). cbn [fst snd]. fold t0 t3. rewrite v0, v3. tauto.
    + right. left. rewrite <- EM. apply (G1 3 0); [lia|lia| |rewrite EM; exact e3]. intros a b. rewrite !ends_taued by (exact H0 || exact Hc1 || lia). change (iare 3) with (1, 2). change (iare 0) with (0, 1). cbn [fst snd]. fold t1 t2 s0 s1. fold np. rewrite v1, v2, W1. tauto.
    + right. left. rewrite <- EM. apply (G1 4 3); [lia|lia| |rewrite EM; exact e4]. intros a b. rewrite !ends_taued by (exact H0 || exact Hc1 || lia). change (iare 4) with (1, 3). change (iare 3) with (1, 2). cbn [fst snd]. fold t1 t3 s1 s2. rewrite v1, v3, W1, W2. tauto.
    + right. left. rewrite <- EM. apply (G1 5 1); [lia|lia| |rewrite EM; exact e5]. intros a b. rewrite !ends_taued by (exact H0 || exact Hc1 || lia). change (iare 5) with (2, 3). change (iare 1) with (0, 2). cbn [fst snd]. fold t2 t3 s0 s2. fold np. rewrite v2, v3, W2. tauto.
  - destruct fin_viel as (v0 & v1 & v2 & v3). pose proof (fun f => gets_etag _ _ _ _ _ _ _ f S Gc NX) as EM. destruct (ec c0 c1 H0 tg rf x0 x1) as (e0 & e1 & e2 & e3 & e4 & e5). fold xc in e0, e1, e2, e3, e4, e5.
    destruct (taued_onto c0 H0 e He) as [->|[->|[->|[->|[->| ->]]]]]; rewrite EM.
    + right. right. rewrite <- EM. apply G2; [lia| |rewrite EM; exact e0]. intros a b. rewrite !ends_taued by (exact H0 || lia). change (iare 0) with (0, 1). cbn [fst snd]. fold t0 t1. rewrite v0, v1. tauto.
    + right. right. rewrite <- EM. apply G2; [lia| |rewrite EM; exact e1]. intros a b. rewrite !ends_taued by (exact H0 || lia). change (iare 1) with (0, 2). cbn [fst snd]. fold t0 t2. rewrite v0, v2. tauto.
    + left. split; [|exact e2]. apply ends_taued; [exact H0|lia|]. left. change (vtx m' iel t0 = vtx m k j0 /\ vtx m' iel t3 = np). rewrite v0, v3. unfold t0. rewrite Q0. auto.
    + right. left. rewrite <- EM. apply (G1 3 4); [lia|lia| |rewrite EM; exact e3]. intros a b. rewrite !ends_taued by (exact H0 || exact Hc1 || lia). change (iare 3) with (1, 2). change (iare 4) with (1, 3). cbn [fst snd]. fold t1 t2 s1 s3. rewrite v1, v2, W1, W3. tauto.
    + right. left. rewrite <- EM. apply (G1 4 0); [lia|lia| |rewrite EM; exact e4]. intros a b. rewrite !ends_taued by (exact H0 || exact Hc1 || lia). change (iare 4) with (1, 3). change (iare 0) with (0, 1). cbn [fst snd]. fold t1 t3 s0 s1. fold np. rewrite v1, v3, W1. tauto.
    + right. left. rewrite <- EM. apply (G1 5 2); [lia|lia| |rewrite EM; exact e5]. intros a b. rewrite !ends_taued by (exact H0 || exact Hc1 || lia). change (iare 5) with (2, 3). change (iare 2) with (0, 3). cbn [fst snd]. fold t2 t3 s0 s3. fold np. rewrite v2, v3, W3. tauto.
Qed.

(** No boundary tetrahedron is shared after the swap. *)
Lemma fin_own : xt_own m' /\ (forall x, live m' x -> 0 <= qxt (aget (m_tet m') x) <= m_nxt m') /\ 0 <= m_nxt m' < alen (m_xt m').
Proof.
  destruct SH as (q' & n' & X' & S & Hn & Ga & Gb & Gc & Ho & Hx & Hq & O1 & O2). destruct S as (_ & Q & N' & L' & _).
  assert (T3 : forall x, live m' x -> (x = k \/ x = k1 \/ x = iel) \/ (live m x /\ x <> k /\ x <> k1 /\ x <> iel)).
  { intros x Lx. apply fin_live in Lx. destruct (Z.eq_dec x k) as [|n1]; [auto|]. destruct (Z.eq_dec x k1) as [|n2]; [auto|]. destruct (Z.eq_dec x iel) as [|n3]; [auto|]. right. destruct Lx as [Lx|Lx]; [auto|contradiction]. }
  assert (R : forall x, live m x -> x <> k -> x <> k1 -> x <> iel -> q' x = qxt (aget (m_tet m) x)).
  { intros x L N1 N2 N3. rewrite Ho by assumption. apply q_o; assumption. }
  assert (M : forall x y, live m x -> x <> k -> x <> k1 -> x <> iel -> (y = k \/ y = k1 \/ y = iel) -> q' x = q' y -> q' x = 0).
  { intros x y L N1 N2 N3 Hy E. rewrite (R x L N1 N2 N3) in E |- *. pose proof (X1 x L) as U1. pose proof (own_k x L N1) as U2. pose proof (own_k1 x L N2) as U3. pose proof (Hq y Hy) as U4.
    clear - E U1 U2 U3 U4. destruct U4 as [Z|[Z|[Z|Z]]]; [congruence|congruence| |].
    - destruct U3 as [U3|U3]; [congruence|exact U3].
    - lia. }
  split; [|split; [|rewrite N'; exact L']].
  - intros x y Lx Ly E NZx. rewrite !Q in *. destruct (T3 x Lx) as [Hx3|(L & N1 & N2 & N3)], (T3 y Ly) as [Hy3|(Ly' & M1 & M2 & M3)].
    + destruct Hx3 as [->|[->| ->]], Hy3 as [->|[->| ->]]; try reflexivity; exfalso.
      * destruct (O1 NZx); congruence.
      * destruct (O1 NZx); congruence.
      * rewrite E in NZx. destruct (O1 NZx); congruence.
      * apply (O2 NZx), E.
      * rewrite E in NZx. destruct (O1 NZx); congruence.
      * rewrite E in NZx. apply (O2 NZx). congruence.
    + exfalso. rewrite E in NZx. apply NZx. symmetry in E. apply (M y x Ly' M1 M2 M3 Hx3 E).
    + exfalso. apply NZx. apply (M x y L N1 N2 N3 Hy3 E).
    + rewrite (R x L N1 N2 N3), (R y Ly' M1 M2 M3) in E. rewrite (R x L N1 N2 N3) in NZx. exact (XO x y L Ly' E NZx).
  - intros x Lx. rewrite Q, N'. destruct (T3 x Lx) as [Hx3|(L & N1 & N2 & N3)].
    + assert (Z : forall v, gets q' n' X' x v -> 0 <= q' x <= n') by (clear - Hn XN; intros v G; unfold gets in G; destruct (isx v); lia).
      destruct Hx3 as [->|[->| ->]]; eapply Z; eassumption.
    + rewrite R by assumption. pose proof (X1 x L) as U. clear - U Hn. lia.
Qed.
End Main.
