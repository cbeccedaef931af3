(** Properties C70 to C73: the analysis of the boundaries of a 2D mesh. *)
From Coq Require Import ZArith List Bool Lia Relations Permutation.
From Verif Require Import CBase SurfModel Tria2 PropsTria2 Pack2 Setadj2 Setadj2Proofs Setadj2Loop.
Import ListNotations.
Open Scope Z_scope.

(** ** Specification *)

(** The bit [n] of the mark of the side [i] of the triangle [k]. *)
Definition mark (tg : arr Z) (k i n : Z) : bool := Z.testbit (entry tg k i) n.
Definition among (n : Z) (l : list Z) : bool := existsb (Z.eqb n) l.
(** Bits 0: MG_REF, 1: MG_GEO, 2: MG_REQ, 4: MG_BDY, 6: MG_NOSURF, 13: MG_PARBDY. *)

(** Two neighbours lie on two sides of a boundary: their references differ or,
    with the open boundaries, the user marked the edge. *)
Definition apart (opn : bool) (a : arr tri) (tg : arr Z) (k i l j : Z) : Prop :=
  t_ref (aget a k) <> t_ref (aget a l) \/ (opn = true /\ (entry tg k i <> 0 \/ entry tg l j <> 0)).

(** What is asked of the input. *)
Record input2 (init : bool) (nt ntmax : Z) (a : arr tri) (adj tg cc w : arr Z) : Prop := {
  i_mesh : mesh2 nt ntmax a;
  i_some : 0 < nt;
  i_adj : alen adj = 3 * ntmax + 5;
  i_fits : fits2 nt a adj;
  i_ref : forall k, 1 <= k <= nt -> t_v (aget a k) 0 <> 0 -> 0 <= t_ref (aget a k);
  i_vert : forall k i, side nt a k i -> t_v (aget a k) i < alen w;
  i_tg : alen tg = 3 * ntmax + 5;
  i_cc : alen cc = ntmax + 1;
  i_zero : init = true \/ forall k, 1 <= k <= nt -> aget cc k = 0 }.

(** The marks of the edges. *)
Record marked (opn nosurf : bool) (nt : Z) (a : arr tri) (adj tg tg' : arr Z) : Prop := {
  m_border : forall k i n, side nt a k i -> entry adj k i = 0 ->
    mark tg' k i n = mark tg k i n || among n [1; 4] ||
      (among n [2; 6] && negb (mark tg k i 2) && (nosurf || mark tg k i 13));
  m_apart : forall k i l j n, side nt a k i -> side nt a l j -> entry adj k i = 3 * l + j -> apart opn a tg k i l j ->
    mark tg' k i n = mark tg k i n || mark tg l j n || among n [0; 4] ||
      (among n [2; 6] && negb (mark tg k i 2) && negb (mark tg l j 2) && nosurf);
  m_inside : forall k i l j n, side nt a k i -> side nt a l j -> entry adj k i = 3 * l + j -> ~ apart opn a tg k i l j ->
    mark tg' k i n = (mark tg k i n || mark tg l j n) && negb (among n [0; 1; 4]) }.

(** The marks of the vertices. *)
Record pointed (nt : Z) (a : arr tri) (tg' w w' : arr Z) : Prop := {
  o_kept : forall v n, Z.testbit (aget w v) n = true -> Z.testbit (aget w' v) n = true;
  o_from : forall v n, Z.testbit (aget w' v) n = true -> Z.testbit (aget w v) n = true \/
     exists k i, side nt a k i /\ In v (ends (aget a k) i) /\ mark tg' k i n = true;
  o_all : forall k i v n, side nt a k i -> In v (ends (aget a k) i) -> In n [0; 1; 2; 4] -> mark tg' k i n = true ->
     Z.testbit (aget w' v) n = true }.

(** Neighbours not set apart, and the triangles joined by them. *)
Definition beside (opn : bool) (nt : Z) (a : arr tri) (adj tg : arr Z) (k l : Z) : Prop :=
  exists i j, side nt a k i /\ side nt a l j /\ entry adj k i = 3 * l + j /\ ~ apart opn a tg k i l j.
Definition joined opn nt a adj tg : Z -> Z -> Prop := clos_refl_sym_trans Z (beside opn nt a adj tg).

(** ** Bits *)

Lemma tb_border n : Z.testbit (G_GEO + G_BDY) n = among n [1; 4].
Proof.
  change (G_GEO + G_BDY) with (Z.lor (2 ^ 1) (2 ^ 4)). rewrite Z.lor_spec, !Z.pow2_bits_eqb by lia.
  unfold among. cbn [existsb]. rewrite (Z.eqb_sym n 1), (Z.eqb_sym n 4), orb_false_r. reflexivity.
Qed.
Lemma tb_face n : Z.testbit (G_REF + G_BDY) n = among n [0; 4].
Proof.
  change (G_REF + G_BDY) with (Z.lor (2 ^ 0) (2 ^ 4)). rewrite Z.lor_spec, !Z.pow2_bits_eqb by lia.
  unfold among. cbn [existsb]. rewrite (Z.eqb_sym n 0), (Z.eqb_sym n 4), orb_false_r. reflexivity.
Qed.
Lemma tb_froz n : Z.testbit (G_REQ + G_NOSURF) n = among n [2; 6].
Proof.
  change (G_REQ + G_NOSURF) with (Z.lor (2 ^ 2) (2 ^ 6)). rewrite Z.lor_spec, !Z.pow2_bits_eqb by lia.
  unfold among. cbn [existsb]. rewrite (Z.eqb_sym n 2), (Z.eqb_sym n 6), orb_false_r. reflexivity.
Qed.
Lemma tb_clr x n : Z.testbit (clr x) n = Z.testbit x n && negb (among n [0; 1; 4]).
Proof.
  rewrite clr_bit. change G_REF with (2 ^ 0). change G_BDY with (2 ^ 4). change G_GEO with (2 ^ 1). rewrite !Z.pow2_bits_eqb by lia.
  unfold among. cbn [existsb]. rewrite (Z.eqb_sym n 0), (Z.eqb_sym n 1), (Z.eqb_sym n 4), orb_false_r.
  destruct (Z.testbit x n), (0 =? n), (1 =? n), (4 =? n); reflexivity.
Qed.
Lemma frz_spec fz x tg n : adds tg -> Z.testbit (frz fz x tg) n = Z.testbit x n || Z.testbit tg n || (among n [2; 6] && negb (Z.testbit x 2) && fz).
Proof.
  intros H. rewrite <- tb_froz. unfold frz. rewrite t_req. destruct (Z.testbit x 2), fz; cbn [negb andb]; rewrite ?(adds_lor tg H), ?Z.lor_spec;
  rewrite ?andb_false_r, ?andb_true_r, ?orb_false_r, ?orb_assoc; reflexivity.
Qed.

(** ** The whole function *)

Section Whole.
Variables (opn nosurf init : bool) (nt ntmax : Z) (a : arr tri) (adj tg cc w : arr Z).
Hypothesis HI : input2 init nt ntmax a adj tg cc w.

Lemma side_live k i : side nt a k i -> live nt a (cell k i) /\ kf (cell k i) = k /\ sf (cell k i) = i.
Proof.
  intros (Hk & N & Hi). destruct (kf_of k i Hi) as [E1 E2]. split; [|auto]. split; [unfold cell; clear -Hk Hi; lia | rewrite E1; exact N].
Qed.
Lemma live_side q : live nt a q -> side nt a (kf q) (sf q).
Proof.
  intros [Hq N]. pose proof (sf_range q) as S. split; [|split; [exact N | exact S]]. pose proof (kf_cell q) as E. unfold cell in E. clear -E S Hq. lia.
Qed.
Lemma entry_cell k i : entry adj k i = aget adj (cell k i). Proof. reflexivity. Qed.

Lemma hA q : live nt a q -> aget adj q = 0 \/ (live nt a (P adj q) /\ P adj q <> q /\ aget adj (P adj q) = q + 2).
Proof.
  intros L. destruct (fit_sym _ _ _ (i_fits _ _ _ _ _ _ _ _ HI) _ _ (live_side q L)) as [E|(l & j & S & N & E1 & E2 & _)].
  - left. rewrite entry_cell, kf_cell in E. exact E.
  - right. rewrite entry_cell, kf_cell in E1. destruct (side_live l j S) as (Lj & K1 & K2). rewrite entry_cell in E2.
    assert (Pq : P adj q = cell l j) by (unfold P, cell; clear -E1; lia). rewrite Pq. split; [exact Lj|]. split.
    + intros C. apply N. rewrite <- C, K1, K2. reflexivity.
    + rewrite E2. pose proof (kf_cell q) as C. unfold cell in C. clear -C. lia.
Qed.
Lemma hR q : live nt a q -> 0 <= rf a q.
Proof. intros L. destruct (live_side q L) as (A & B & _). apply (i_ref _ _ _ _ _ _ _ _ HI); assumption. Qed.
Lemma nx_rng i : 0 <= i < 3 -> 0 <= nx i < 3 /\ 0 <= pv i < 3.
Proof. clear. intros H. assert (i = 0 \/ i = 1 \/ i = 2) as [->|[->| ->]] by lia; cbn; lia. Qed.
Lemma hV q : live nt a q -> 0 <= en1 a q < alen w /\ 0 <= en2 a q < alen w.
Proof.
  intros L. destruct (live_side q L) as (A & B & C). destruct (nx_rng _ C) as [N1 N2].
  destruct (i_mesh _ _ _ _ _ _ _ _ HI) as (_ & _ & V).
  pose proof (V _ A B _ N1). pose proof (V _ A B _ N2).
  pose proof (i_vert _ _ _ _ _ _ _ _ HI (kf q) (nx (sf q)) (conj A (conj B N1))). pose proof (i_vert _ _ _ _ _ _ _ _ HI (kf q) (pv (sf q)) (conj A (conj B N2))).
  unfold en1, en2. lia.
Qed.

Lemma init_ok : exists c, (if init then for_range 1 nt (fun k cc => wr cc k 0) cc else Ret cc) = Ret c /\ alen c = ntmax + 1 /\
  forall k, 1 <= k <= nt -> aget c k = 0.
Proof.
  pose proof (i_cc _ _ _ _ _ _ _ _ HI) as L. pose proof (i_some _ _ _ _ _ _ _ _ HI) as N. destruct (i_mesh _ _ _ _ _ _ _ _ HI) as (R & _).
  destruct init eqn:Ei.
  - destruct (@for_range_inv _ (fun m (c : arr Z) => alen c = ntmax + 1 /\ forall k, 1 <= k < m -> aget c k = 0) (fun k cc => wr cc k 0) 1 nt cc) as (c & E & A & B).
    + lia.
    + split; [exact L|]. intros k Hk. lia.
    + intros m c Hm [A B]. rewrite wr_ok by lia. eexists. split; [reflexivity|]. cbn [alen aget]. split; [exact A|].
      intros k Hk. destruct (Z.eq_dec k m) as [->|Nk]; [apply upd_same | rewrite upd_other by exact Nk; apply B; lia].
    + exists c. split; [exact E|]. split; [exact A|]. intros k Hk. apply B. lia.
  - exists cc. split; [reflexivity|]. split; [exact L|]. destruct (i_zero _ _ _ _ _ _ _ _ HI) as [C|C]; [congruence | exact C].
Qed.

Lemma whole : exists n s D, setadj2 opn nosurf nt a adj init tg cc w = Ret (n, s) /\
  Inv opn nosurf nt ntmax a adj tg w n 0 D s /\ (forall q, live nt a q -> D q = true) /\
  forall k, 1 <= k <= nt -> t_v (aget a k) 0 <> 0 -> aget (g_cc s) k <> 0.
Proof.
  destruct init_ok as (c & E & Lc & Zc). unfold setadj2. rewrite E. cbn [bind].
  pose proof (i_some _ _ _ _ _ _ _ _ HI) as Np. destruct (i_mesh _ _ _ _ _ _ _ _ HI) as (R & La & V).
  assert (Hn : 0 < nt <= ntmax) by lia.
  assert (HE : forall k, 1 <= k <= nt -> t_v (aget a k) 0 <> 0 -> 0 < t_v (aget a k) 0) by (intros k A B; apply V; [exact A | exact B | lia]).
  unfold push2 at 1. unfold c_assert. destruct (Z.leb_spec (Z.of_nat (length (@nil Z)) + 1) nt) as [_|C]; [|cbn in C; lia]. cbn [bind].
  rewrite wr_ok by lia. cbn [bind]. rewrite Lc.
  set (c1 := mkArr (ntmax + 1) (upd (aget c) 1 1)).
  assert (C1 : forall k, 1 <= k <= nt -> aget c1 k = if k =? 1 then 1 else 0).
  { intros k Hk. cbn [c1 aget]. destruct (Z.eqb_spec k 1) as [->|N]; [apply upd_same | rewrite upd_other by exact N; apply Zc; exact Hk]. }
  assert (TI : TagInv opn nosurf nt ntmax a adj tg (fun _ => false) tg).
  { split; [exact (i_tg _ _ _ _ _ _ _ _ HI)|]. intros q _. unfold seen. cbn [orb]. rewrite andb_false_r. reflexivity. }
  assert (PI : PtInv opn nosurf nt a adj tg w (fun _ => false) w).
  { constructor; [apply more_refl | auto | discriminate]. }
  assert (Fin : exists n s D, loop2 opn nosurf nt a adj (Z.to_nat (2 * nt + 2)) 1 (mkSt tg c1 w [1]) = Ret (n, s) /\
     Inv opn nosurf nt ntmax a adj tg w n 0 D s /\ g_pile s = [] /\ (forall k, T nt a k -> aget (g_cc s) k <> 0)).
  { destruct (Z.eq_dec (t_v (aget a 1) 0) 0) as [H0|H1].
    - replace (Z.to_nat (2 * nt + 2)) with (S (Z.to_nat (2 * nt + 1))) by lia. cbn [loop2 g_pile g_tg g_cc g_pt].
      unfold process2 at 1. rewrite rd_ok by lia. cbn [bind]. unfold t_eok. rewrite H0. cbn [Z.ltb Z.compare bind].
      apply (loop_ok opn nosurf nt ntmax a adj tg w Hn La (i_adj _ _ _ _ _ _ _ _ HI) hA hR hV HE _ 1 (fun _ => false)).
      + assert (N1 : forall k, T nt a k -> k <> 1) by (intros k [_ N] ->; contradiction).
        assert (C0 : forall k, T nt a k -> aget c1 k = 0).
        { intros k Hk. rewrite C1 by apply Hk. destruct (Z.eqb_spec k 1); [destruct (N1 k Hk e) | reflexivity]. }
        constructor; cbn [g_tg g_cc g_pt g_pile]; try assumption; try reflexivity; try discriminate; try (clear; lia).
        * intros k Hk. rewrite (C0 k Hk). clear. lia.
        * intros k [].
        * constructor.
        * intros k Hk N. destruct (N (C0 k Hk)).
        * intros k l Hk _ _ N. destruct (N (C0 k Hk)).
        * intros x Hx. unfold lo in Hx. rewrite H0 in Hx. cbn in Hx. exfalso. clear -Hx. lia.
      + unfold room. cbn [g_cc g_pile length]. pose proof (U_le nt a (aget c1)). lia.
    - apply (loop_ok opn nosurf nt ntmax a adj tg w Hn La (i_adj _ _ _ _ _ _ _ _ HI) hA hR hV HE _ 1 (fun _ => false)).
      + constructor; cbn [g_tg g_cc g_pt g_pile]; try assumption; try reflexivity; try discriminate; try (clear; lia).
        * intros k Hk. rewrite C1 by apply Hk. destruct (_ =? _); clear; lia.
        * intros k [<-|[]]. split; [split; [clear -Np; lia | exact H1]|]. apply C1. clear -Np; lia.
        * constructor; [intros []|constructor].
        * intros k Hk. rewrite C1 by apply Hk. destruct (Z.eqb_spec k 1) as [->|]; [intros _; left; left; reflexivity | intros N; destruct (N eq_refl)].
        * intros k l Hk Hl. rewrite !C1 by (apply Hk || apply Hl). destruct (Z.eqb_spec k 1) as [->|], (Z.eqb_spec l 1) as [->|]; intros Eq N; try congruence; try apply rst_refl.
        * intros x Hx. assert (x = 1) as ->. { unfold lo in Hx. destruct (_ =? _) in Hx; clear -Hx; lia. }
          exists 1. split; [split; [clear -Np; lia | exact H1]|]. apply C1. clear -Np; lia.
      + unfold room. cbn [g_cc g_pile length]. pose proof (U_le nt a (aget c1)). lia. }
  destruct Fin as (n & s & D & E1 & I & Ep & All). exists n, s, D. split; [exact E1|]. split; [exact I|]. split.
  - intros q L. destruct (live_side q L) as (A & B & S). destruct (v_all _ _ _ _ _ _ _ _ _ _ _ _ I (kf q) (conj A B) (All _ (conj A B))) as [H|[H|H]].
    + rewrite Ep in H. destruct H.
    + lia.
    + rewrite <- (kf_cell q). apply H. exact S.
  - intros k A B. apply All. split; assumption.
Qed.

(** The partner of a side. *)
Lemma partner k i l j : side nt a k i -> side nt a l j -> entry adj k i = 3 * l + j ->
  aget adj (cell k i) <> 0 /\ P adj (cell k i) = cell l j.
Proof. intros (A & _) (B & _ & C) E. rewrite entry_cell in E. split; [clear -E B C; lia|]. unfold P. rewrite E. unfold cell. clear. lia. Qed.

Lemma apart_bnd k i l j : side nt a k i -> side nt a l j -> entry adj k i = 3 * l + j ->
  (bnd opn a adj tg (cell k i) = true <-> apart opn a tg k i l j).
Proof.
  intros S1 S2 E. destruct (partner k i l j S1 S2 E) as [N Pq]. destruct (side_live k i S1) as (L1 & K1 & _). destruct (side_live l j S2) as (L2 & K2 & _).
  pose proof (hR _ L1) as R1. pose proof (hR _ L2) as R2.
  unfold bnd, apart. rewrite Pq. unfold rf in *. rewrite K1 in *. rewrite K2 in *. rewrite !Z.abs_eq by assumption.
  destruct (Z.eqb_spec (aget adj (cell k i)) 0) as [|_]; [contradiction|]. cbn [negb andb].
  destruct (Z.eqb_spec (t_ref (aget a l)) (t_ref (aget a k))) as [Er|Nr].
  2: { rewrite orb_true_r. split; [intros _; left; congruence | reflexivity]. }
  cbn [negb]. rewrite orb_false_r, andb_true_iff, negb_true_iff, Z.eqb_neq.
  assert (Mo : opn = true -> M opn a adj tg (cell k i) = Z.lor (entry tg k i) (entry tg l j)).
  { intros Eo. unfold M. destruct (Z.eqb_spec (aget adj (cell k i)) 0) as [|_]; [contradiction|]. unfold same. rewrite Eo. cbn [negb andb].
    rewrite Pq. reflexivity. }
  split.
  - intros [Eo Nm]. right. split; [exact Eo|]. rewrite (Mo Eo) in Nm. destruct (Z.eq_dec (entry tg k i) 0) as [Z1|]; [|auto].
    destruct (Z.eq_dec (entry tg l j) 0) as [Z2|]; [|auto]. rewrite Z1, Z2 in Nm. destruct (Nm eq_refl).
  - intros [C|[Eo H]]; [congruence|]. split; [exact Eo|]. rewrite (Mo Eo), Z.lor_eq_0_iff. tauto.
Qed.

Lemma beside_stp k l : beside opn nt a adj tg k l <-> stp opn nt a adj tg k l.
Proof.
  split.
  - intros (i & j & S1 & S2 & E & N). destruct (partner k i l j S1 S2 E) as [Nz Pq]. destruct (side_live k i S1) as (L1 & K1 & _). destruct (side_live l j S2) as (L2 & K2 & _).
    exists (cell k i). split; [exact L1|]. rewrite Pq. split; [|auto]. split; [exact Nz|].
    destruct (bnd opn a adj tg (cell k i)) eqn:B; [|reflexivity]. destruct N. apply (apart_bnd k i l j S1 S2 E). exact B.
  - intros (q & L & [Nz B] & <- & <-). destruct (hA q L) as [C|(Lp & Np & Ap)]; [contradiction|].
    assert (E : entry adj (kf q) (sf q) = 3 * kf (P adj q) + sf (P adj q)).
    { rewrite entry_cell, kf_cell. pose proof (kf_cell (P adj q)) as X. unfold cell in X. unfold P in *. clear -X. lia. }
    exists (sf q), (sf (P adj q)). split; [apply live_side; exact L|]. split; [apply live_side; exact Lp|]. split; [exact E|].
    intros C. apply (apart_bnd _ _ _ _ (live_side _ L) (live_side _ Lp) E) in C. rewrite kf_cell in C. congruence.
Qed.

Lemma ends_in t i v : 0 <= i < 3 -> (In v (ends t i) <-> v = t_v t (nx i) \/ v = t_v t (pv i)).
Proof. clear. intros H. assert (i = 0 \/ i = 1 \/ i = 2) as [->|[->| ->]] by lia; cbn; intuition. Qed.
End Whole.

(** ** C70 *)

Lemma final_F opn nosurf nt ntmax a adj tg w n D s k i :
  Inv opn nosurf nt ntmax a adj tg w n 0 D s -> (forall q, live nt a q -> D q = true) -> side nt a k i ->
  entry (g_tg s) k i = F opn nosurf a adj tg (cell k i).
Proof.
  intros I All S. destruct (side_live nt a k i S) as (L & _). destruct (v_tag _ _ _ _ _ _ _ _ _ _ _ _ I) as [_ H].
  change (entry (g_tg s) k i) with (aget (g_tg s) (cell k i)). rewrite (H _ L). unfold seen. rewrite (All _ L). reflexivity.
Qed.

Theorem setadj_marks : forall opn nosurf init nt ntmax a adj tg cc w,
  input2 init nt ntmax a adj tg cc w ->
  exists n s, setadj2 opn nosurf nt a adj init tg cc w = Ret (n, s) /\
    marked opn nosurf nt a adj tg (g_tg s) /\ pointed nt a (g_tg s) w (g_pt s).
Proof.
  intros opn nosurf init nt ntmax a adj tg cc w HI. destruct (whole opn nosurf init nt ntmax a adj tg cc w HI) as (n & s & D & E & I & All & _).
  exists n, s. split; [exact E|]. pose proof (fun k i => final_F opn nosurf nt ntmax a adj tg w n D s k i I All) as FF. split; constructor.
  - intros k i m S E0. unfold mark. rewrite (FF k i S) . unfold F, M. change (aget adj (cell k i)) with (entry adj k i). rewrite E0. cbn [Z.eqb].
    rewrite (frz_spec _ _ _ _ add_b), tb_border, t_par. reflexivity.
  - intros k i l j m S1 S2 E0 Ap. destruct (partner nt a adj k i l j S1 S2 E0) as [Nz Pq].
    unfold mark. rewrite (FF k i S1). unfold F. apply (apart_bnd opn init nt ntmax a adj tg cc w HI k i l j S1 S2 E0) in Ap as B. rewrite B.
    destruct (Z.eqb_spec (aget adj (cell k i)) 0) as [|_]; [contradiction|]. rewrite (frz_spec _ _ _ _ add_i), tb_face.
    assert (Ns : same opn a adj (cell k i) = false).
    { destruct (same opn a adj (cell k i)) eqn:Sa; [|reflexivity]. rewrite (same_bnd opn a adj tg _ Sa) in B. discriminate. }
    unfold M. rewrite Ns. destruct (Z.eqb_spec (aget adj (cell k i)) 0) as [|_]; [contradiction|]. rewrite Pq, !Z.lor_spec.
    change (aget tg (cell k i)) with (entry tg k i). change (aget tg (cell l j)) with (entry tg l j).
    rewrite negb_orb, !andb_assoc. reflexivity.
  - intros k i l j m S1 S2 E0 Ap. destruct (partner nt a adj k i l j S1 S2 E0) as [Nz Pq].
    unfold mark. rewrite (FF k i S1). unfold F.
    destruct (bnd opn a adj tg (cell k i)) eqn:B; [destruct Ap; apply (apart_bnd opn init nt ntmax a adj tg cc w HI k i l j S1 S2 E0); exact B|].
    destruct (Z.eqb_spec (aget adj (cell k i)) 0) as [|_]; [contradiction|].
    destruct (side_live nt a k i S1) as (L1 & K1 & _). destruct (side_live nt a l j S2) as (L2 & K2 & _).
    unfold M. destruct (Z.eqb_spec (aget adj (cell k i)) 0) as [|_]; [contradiction|]. rewrite Pq.
    change (aget tg (cell k i)) with (entry tg k i). change (aget tg (cell l j)) with (entry tg l j).
    unfold same, rf. rewrite Pq, K1, K2. unfold apart in Ap. destruct (Z.eqb_spec (t_ref (aget a k)) (t_ref (aget a l))) as [Er|Nr]; [|destruct Ap; auto].
    destruct opn; cbn [negb andb].
    + assert (entry tg k i = 0) as ->. { destruct (Z.eq_dec (entry tg k i) 0); [assumption | destruct Ap; auto]. }
      assert (entry tg l j = 0) as ->. { destruct (Z.eq_dec (entry tg l j) 0); [assumption | destruct Ap; auto]. }
      rewrite Z.lor_spec, Z.bits_0. reflexivity.
    + rewrite tb_clr, Z.lor_spec. reflexivity.
  - intros v m H. apply (p_more _ _ _ _ _ _ _ _ _ (v_pt _ _ _ _ _ _ _ _ _ _ _ _ I)). exact H.
  - intros v m H. destruct (p_snd _ _ _ _ _ _ _ _ _ (v_pt _ _ _ _ _ _ _ _ _ _ _ _ I) v m H) as [|(q & L & En & Fq)]; [auto|]. right.
    exists (kf q), (sf q). pose proof (live_side nt a q L) as S. split; [exact S|]. split.
    + apply ends_in; [apply S | exact En].
    + unfold mark. rewrite (FF _ _ S), kf_cell. exact Fq.
  - intros k i v m S En Hm H. destruct (side_live nt a k i S) as (L & K1 & K2).
    apply (p_cpl _ _ _ _ _ _ _ _ _ (v_pt _ _ _ _ _ _ _ _ _ _ _ _ I) (cell k i)); [exact L | apply All; exact L | | exact Hm |].
    + unfold endof, en1, en2. rewrite K1, K2. apply ends_in; [apply S | exact En].
    + unfold mark in H. rewrite (FF k i S) in H. exact H.
Qed.
Print Assumptions setadj_marks.

(** ** C71 *)

Theorem setadj_components : forall opn nosurf init nt ntmax a adj tg cc w,
  input2 init nt ntmax a adj tg cc w ->
  exists n s, setadj2 opn nosurf nt a adj init tg cc w = Ret (n, s) /\
    (forall k, 1 <= k <= nt -> t_v (aget a k) 0 <> 0 -> 1 <= aget (g_cc s) k <= n) /\
    (forall k l, 1 <= k <= nt -> t_v (aget a k) 0 <> 0 -> 1 <= l <= nt -> t_v (aget a l) 0 <> 0 ->
       (aget (g_cc s) k = aget (g_cc s) l <-> joined opn nt a adj tg k l)) /\
    (t_v (aget a 1) 0 <> 0 -> forall c, 1 <= c <= n -> exists k, 1 <= k <= nt /\ t_v (aget a k) 0 <> 0 /\ aget (g_cc s) k = c).
Proof.
  intros opn nosurf init nt ntmax a adj tg cc w HI. destruct (whole opn nosurf init nt ntmax a adj tg cc w HI) as (n & s & D & E & I & All & Nz).
  exists n, s. split; [exact E|]. split; [|split].
  - intros k A B. pose proof (v_rng _ _ _ _ _ _ _ _ _ _ _ _ I k (conj A B)). pose proof (Nz k A B). lia.
  - intros k l A B C F. split.
    + intros Eq. pose proof (v_conn _ _ _ _ _ _ _ _ _ _ _ _ I k l (conj A B) (conj C F) Eq (Nz k A B)) as Cn.
      clear -Cn HI. induction Cn as [x y H|x|x y _ IH|x y z _ IH1 _ IH2].
      * apply rst_step. apply (beside_stp opn init nt ntmax a adj tg cc w HI). exact H.
      * apply rst_refl.
      * apply rst_sym. exact IH.
      * eapply rst_trans; eassumption.
    + intros J. clear A B C F. induction J as [x y H|x|x y _ IH|x y z _ IH1 _ IH2]; [|reflexivity|congruence|congruence].
      apply (beside_stp opn init nt ntmax a adj tg cc w HI) in H. destruct H as (q & L & Cr & <- & <-). symmetry.
      apply (v_clo _ _ _ _ _ _ _ _ _ _ _ _ I q (All q L) Cr).
  - intros N1 c Hc. destruct (v_some _ _ _ _ _ _ _ _ _ _ _ _ I c) as (k & [A B] & C); [|exists k; auto].
    unfold lo. destruct (Z.eqb_spec (t_v (aget a 1) 0) 0); [contradiction|exact Hc].
Qed.
Print Assumptions setadj_components.

(** ** C72 *)

(** Neither [-nosurf] nor marks of parallel borders nor frozen edges at the
    vertex: a required vertex is not frozen, and [MMG2D_pack] leaves it required. *)
Theorem required_vertex_kept : forall opn init nt ntmax a adj tg cc w v,
  input2 init nt ntmax a adj tg cc w ->
  Z.testbit (aget w v) 2 = true -> Z.testbit (aget w v) 6 = false ->
  (forall k i, side nt a k i -> mark tg k i 6 = false /\ mark tg k i 13 = false) ->
  exists n s, setadj2 opn false nt a adj init tg cc w = Ret (n, s) /\
    Z.testbit (aget (g_pt s) v) 6 = false /\ Z.testbit (thaw (aget (g_pt s) v)) 2 = true.
Proof.
  intros opn init nt ntmax a adj tg cc w v HI B2 B6 Hs.
  destruct (setadj_marks opn false init nt ntmax a adj tg cc w HI) as (n & s & E & Mk & Pt). exists n, s. split; [exact E|].
  assert (X6 : Z.testbit (aget (g_pt s) v) 6 = false).
  { destruct (Z.testbit (aget (g_pt s) v) 6) eqn:X; [|reflexivity]. exfalso.
    destruct (o_from _ _ _ _ _ Pt v 6 X) as [C|(k & i & S & _ & C)]; [congruence|]. destruct (Hs k i S) as [H6 H13].
    destruct (fit_sym _ _ _ (i_fits _ _ _ _ _ _ _ _ HI) k i S) as [Z0|(l & j & S2 & _ & E1 & _)].
    - rewrite (m_border _ _ _ _ _ _ _ Mk k i 6 S Z0), H6, H13, !andb_false_r in C. discriminate.
    - destruct (Hs l j S2) as [G6 _].
      destruct (Bool.bool_dec (bnd opn a adj tg (cell k i)) true) as [B|B].
      + apply (apart_bnd opn init nt ntmax a adj tg cc w HI k i l j S S2 E1) in B.
        rewrite (m_apart _ _ _ _ _ _ _ Mk k i l j 6 S S2 E1 B), H6, G6, !andb_false_r in C. discriminate.
      + assert (B' : ~ apart opn a tg k i l j) by (intros A; apply B, (apart_bnd opn init nt ntmax a adj tg cc w HI k i l j S S2 E1), A).
        rewrite (m_inside _ _ _ _ _ _ _ Mk k i l j 6 S S2 E1 B'), H6, G6 in C. discriminate. }
  split; [exact X6|]. unfold thaw. change G_NOSURF with (2 ^ 6). rewrite (Setadj2Proofs.tst_pow _ 6 ltac:(lia)), X6.
  apply (o_kept _ _ _ _ _ Pt). exact B2.
Qed.
Print Assumptions required_vertex_kept.

(** The mesh [square] of PropsTria2 (references 1, 1 and 2), no marks on the
    edges; the vertex 3, at the interface, is required. *)
Definition marks0 : arr Z := acalloc 23 0.
Definition points3 : arr Z := aof 0 [0; 0; 4; 0; 0].
Definition after (nosurf : bool) : outcome (arr Z * (Z * st2)) :=
  adj <- hash2 1000 4 6 square ;; r <- setadj2 false nosurf 4 square adj true marks0 (acalloc 7 0) points3 ;; Ret (adj, r).

Lemma square_input b adj : hash2 1000 4 6 square = Ret adj -> input2 b 4 6 square adj marks0 (acalloc 7 0) points3.
Proof.
  intros E. destruct (hash_2d_fits 1000 4 6 square square_mesh ltac:(lia)) as (adj' & E' & L & Ft).
  assert (adj' = adj) as -> by congruence. constructor; try assumption; try reflexivity; try lia; auto using square_mesh.
  - intros k Hk _. assert (k = 1 \/ k = 2 \/ k = 3 \/ k = 4) as [->|[->|[->| ->]]] by lia; vm_compute; discriminate.
  - intros k i (Hk & _ & Hi). assert (k = 1 \/ k = 2 \/ k = 3 \/ k = 4) as C by lia. assert (i = 0 \/ i = 1 \/ i = 2) as D by lia.
    destruct C as [->|[->|[->| ->]]], D as [->|[->| ->]]; vm_compute; reflexivity.
Qed.

Theorem required_vertex_refuted : exists nt ntmax a adj tg cc w v n s,
  input2 true nt ntmax a adj tg cc w /\
  (forall k i, side nt a k i -> entry tg k i = 0) /\
  Z.testbit (aget w v) 2 = true /\ Z.testbit (aget w v) 6 = false /\
  setadj2 false true nt a adj true tg cc w = Ret (n, s) /\
  Z.testbit (aget (g_pt s) v) 6 = true /\ Z.testbit (thaw (aget (g_pt s) v)) 2 = false.
Proof.
  assert (T : match after true with Ret (_, (_, s)) => Z.testbit (aget (g_pt s) 3) 6 && negb (Z.testbit (thaw (aget (g_pt s) 3)) 2) | Stuck => false end = true)
    by (vm_compute; reflexivity).
  unfold after in T. destruct (hash2 1000 4 6 square) as [adj|] eqn:E; [|discriminate]. cbn [bind] in T.
  destruct (setadj2 false true 4 square adj true marks0 (acalloc 7 0) points3) as [[n s]|] eqn:E2; [|discriminate]. cbn [bind] in T.
  apply andb_prop in T as [T1 T2]. apply negb_true_iff in T2.
  exists 4, 6, square, adj, marks0, (acalloc 7 0), points3, 3, n, s. split; [apply square_input; exact E|].
  split; [reflexivity|]. split; [reflexivity|]. split; [reflexivity|]. split; [exact E2|]. split; assumption.
Qed.
Print Assumptions required_vertex_refuted.

(** ** C73 *)

(** When the numbers of a former call are still there and are not reset
    ([init_cc] is 0, analys_2d.c:1036), only the triangle 1 is looked at: the marks
    of all other edges stay as they are. *)
Theorem stale_numbers : forall opn nosurf nt ntmax a adj tg cc w,
  input2 true nt ntmax a adj tg cc w ->
  (forall k, 1 <= k <= nt -> t_v (aget a k) 0 <> 0 -> 0 < aget cc k) ->
  exists s, setadj2 opn nosurf nt a adj false tg cc w = Ret (1, s) /\
    forall k i, side nt a k i -> k <> 1 -> (forall j, 0 <= j < 3 -> entry adj k i <> 3 * 1 + j) ->
      entry (g_tg s) k i = entry tg k i.
Proof.
  intros opn nosurf nt ntmax a adj tg cc w HI Hcc. pose proof (i_some _ _ _ _ _ _ _ _ HI) as Np. destruct (i_mesh _ _ _ _ _ _ _ _ HI) as (R & La & V).
  pose proof (i_cc _ _ _ _ _ _ _ _ HI) as Lc. pose proof (hA true nt ntmax a adj tg cc w HI) as HA. pose proof (hR true nt ntmax a adj tg cc w HI) as HR.
  pose proof (hV true nt ntmax a adj tg cc w HI) as HV.
  unfold setadj2. cbn [bind]. unfold push2 at 1. unfold c_assert. destruct (Z.leb_spec (Z.of_nat (length (@nil Z)) + 1) nt) as [_|C]; [|cbn in C; lia]. cbn [bind].
  rewrite wr_ok by lia. cbn [bind]. set (c1 := mkArr (alen cc) (upd (aget cc) 1 1)).
  assert (C1 : forall k, 1 <= k <= nt -> t_v (aget a k) 0 <> 0 -> 0 < aget c1 k).
  { intros k Hk N. cbn [c1 aget]. destruct (Z.eq_dec k 1) as [->|Nk]; [rewrite upd_same; lia | rewrite upd_other by exact Nk; apply Hcc; assumption]. }
  assert (Fu : exists f, Z.to_nat (2 * nt + 2) = S (S f)) by (exists (Z.to_nat (2 * nt)); lia). destruct Fu as [f ->].
  (* the end of the loops *)
  assert (End : forall tg' w', loop2 opn nosurf nt a adj (S f) 1 (mkSt tg' c1 w' []) = Ret (1, mkSt tg' c1 w' [])).
  { intros tg' w'. cbn [loop2 g_pile g_cc]. 
    destruct (next_ok nt ntmax a ltac:(lia) La c1 (Z.to_nat nt) 1 Lc ltac:(lia) ltac:(lia)) as (o & -> & Ho). cbn [bind].
    destruct o as [k|]; [|reflexivity]. destruct Ho as [[A B] Z0]. pose proof (C1 k A B). lia. }
  (* a side *)
  assert (Vi : forall q D tg' w', live nt a q -> D q = false -> TagInv opn nosurf nt ntmax a adj tg D tg' -> PtInv opn nosurf nt a adj tg w D w' ->
    exists tg2 w2, visit2 opn nosurf nt a adj 1 (kf q) (sf q) (mkSt tg' c1 w' []) = Ret (mkSt tg2 c1 w2 []) /\
      TagInv opn nosurf nt ntmax a adj tg (addD D q) tg2 /\ PtInv opn nosurf nt a adj tg w (addD D q) w2).
  { intros q D tg' w' L Dq TI PI.
    destruct (visit2_marks opn nosurf nt ntmax a adj tg w ltac:(lia) La (i_adj _ _ _ _ _ _ _ _ HI) HA HR HV 1 D tg' c1 w' [] q L Dq TI PI) as (tg2 & w2 & T2 & P2 & ->).
    exists tg2, w2. split; [|split; assumption]. destruct (Z.eqb_spec (aget adj q) 0) as [|N0]; [reflexivity|]. cbn [orb]. destruct (bnd opn a adj tg q); [reflexivity|].
    destruct (HA q L) as [|(Lp & _)]; [contradiction|]. destruct (live_side nt a _ Lp) as (A & B & _).
    rewrite rd_ok by (cbn [c1 alen]; lia). cbn [bind]. pose proof (C1 _ A B) as Cp. apply Z.ltb_lt in Cp. rewrite Cp. reflexivity. }
  change (loop2 opn nosurf nt a adj (S (S f)) 1 (mkSt tg c1 w [1])) with
    (s <- process2 opn nosurf nt a adj 1 1 (mkSt tg c1 w []) ;; loop2 opn nosurf nt a adj (S f) 1 s).
  unfold process2. rewrite rd_ok by lia. cbn [bind]. destruct (t_eok (aget a 1)) eqn:Eo.
  - assert (N1 : t_v (aget a 1) 0 <> 0) by (unfold t_eok in Eo; apply Z.ltb_lt in Eo; lia).
    assert (Sd : forall i, 0 <= i < 3 -> side nt a 1 i) by (intros i Hi; split; [lia | auto]).
    assert (VV : forall i D tg' w', 0 <= i < 3 -> D (cell 1 i) = false -> TagInv opn nosurf nt ntmax a adj tg D tg' -> PtInv opn nosurf nt a adj tg w D w' ->
      exists tg2 w2, visit2 opn nosurf nt a adj 1 1 i (mkSt tg' c1 w' []) = Ret (mkSt tg2 c1 w2 []) /\
      TagInv opn nosurf nt ntmax a adj tg (addD D (cell 1 i)) tg2 /\ PtInv opn nosurf nt a adj tg w (addD D (cell 1 i)) w2).
    { intros i D tg' w' Hi. destruct (side_live nt a 1 i (Sd i Hi)) as (L & K1 & K2). pose proof (Vi (cell 1 i) D tg' w' L) as X. rewrite K1, K2 in X. exact X. }
    destruct (VV 0 (fun _ => false) tg w ltac:(lia) eq_refl) as (t1 & w1 & -> & T1 & P1).
    { split; [exact (i_tg _ _ _ _ _ _ _ _ HI)|]. intros q _. unfold seen. cbn [orb]. rewrite andb_false_r. reflexivity. }
    { constructor; [apply more_refl | auto | discriminate]. }
    cbn [bind]. destruct (VV 1 _ t1 w1 ltac:(lia) eq_refl T1 P1) as (t2 & w2 & -> & T2 & P2).
    cbn [bind]. destruct (VV 2 _ t2 w2 ltac:(lia) eq_refl T2 P2) as (t3 & w3 & -> & T3 & P3). cbn [bind].
    rewrite End. eexists. split; [reflexivity|]. intros k i S Nk Ne. cbn [g_tg]. destruct (side_live nt a k i S) as (L & K1 & K2).
    change (entry t3 k i) with (aget t3 (cell k i)). rewrite (proj2 T3 _ L).
    assert (NC : forall q, (q = cell 1 0 \/ q = cell 1 1 \/ q = cell 1 2) <-> addD (addD (addD (fun _ => false) (cell 1 0)) (cell 1 1)) (cell 1 2) q = true).
    { intros q. unfold addD. cbn [orb]. rewrite !orb_true_iff, !Z.eqb_eq. tauto. }
    destruct (seen adj _ (cell k i)) eqn:Sn; [|reflexivity]. exfalso. unfold seen in Sn. apply orb_true_iff in Sn as [Sn|Sn].
    + apply NC in Sn. destruct S as (_ & _ & Hi). unfold cell in Sn. lia.
    + apply andb_true_iff in Sn as [_ Sn]. apply NC in Sn. rewrite !entry_cell in Ne. unfold P in Sn.
      pose proof (Ne 0 ltac:(lia)). pose proof (Ne 1 ltac:(lia)). pose proof (Ne 2 ltac:(lia)). unfold cell in Sn at 2 4 6. lia.
  - cbn [bind]. rewrite End. eexists. split; reflexivity.
Qed.
Print Assumptions stale_numbers.

(** What [MMG2D_pack] makes of the marks (hash_2d.c:557-560, 593-596). *)
Definition thaws (x : arr Z) : arr Z := mkArr (alen x) (fun k => thaw (aget x k)).

(** A call under [-nosurf] on a mesh without numbers, its marks released, and a
    second call: the border edge has been frozen by the first call only. *)
Theorem second_run_refuted : exists nt ntmax a adj tg cc w n s n' s' k i,
  input2 false nt ntmax a adj tg cc w /\
  setadj2 false true nt a adj false tg cc w = Ret (n, s) /\
  setadj2 false true nt a adj false (thaws (g_tg s)) (g_cc s) (thaws (g_pt s)) = Ret (n', s') /\
  side nt a k i /\ entry adj k i = 0 /\ mark (g_tg s) k i 2 = true /\ mark (g_tg s') k i 2 = false.
Proof.
  assert (T : match (adj <- hash2 1000 4 6 square ;; r <- setadj2 false true 4 square adj false marks0 (acalloc 7 0) points3 ;;
      r' <- setadj2 false true 4 square adj false (thaws (g_tg (snd r))) (g_cc (snd r)) (thaws (g_pt (snd r))) ;;
      Ret ((entry adj 3 1 =? 0) && mark (g_tg (snd r)) 3 1 2 && negb (mark (g_tg (snd r')) 3 1 2))) with Ret b => b | Stuck => false end = true)
    by (vm_compute; reflexivity).
  destruct (hash2 1000 4 6 square) as [adj|] eqn:E; [|discriminate]. cbn [bind] in T.
  destruct (setadj2 false true 4 square adj false marks0 (acalloc 7 0) points3) as [[n s]|] eqn:E2; [|discriminate]. cbn [bind snd] in T.
  destruct (setadj2 false true 4 square adj false (thaws (g_tg s)) (g_cc s) (thaws (g_pt s))) as [[n' s']|] eqn:E3; [|discriminate]. cbn [bind snd] in T.
  apply andb_prop in T as [T T3]. apply andb_prop in T as [T1 T2]. apply negb_true_iff in T3. apply Z.eqb_eq in T1.
  exists 4, 6, square, adj, marks0, (acalloc 7 0), points3, n, s, n', s', 3, 1. split; [apply square_input; exact E|].
  split; [exact E2|]. split; [exact E3|]. split; [|split; [exact T1|split; assumption]].
  split; [lia|]. split; [vm_compute; discriminate | lia].
Qed.
Print Assumptions second_run_refuted.

(** ** Cases *)

(** Two subdomains: the triangles 1 and 3, the triangle 4; the marks of the
    sides of the triangle 3 (the interface, the border, the side inside)
    and of the vertices. *)
Example square_two : match after false with
  | Ret (_, (n, s)) => (n, map (aget (g_cc s)) [1; 3; 4], map (entry (g_tg s) 3) [0; 1; 2], map (aget (g_pt s)) [1; 2; 3; 4; 5])
  | Stuck => (0, [], [], []) end = (2, [1; 1; 2], [17; 18; 0], [18; 18; 23; 19; 18]).
Proof. vm_compute. reflexivity. Qed.
(** With [-nosurf] all the vertices are frozen, also the vertex 3. *)
Example square_frozen : match after true with
  | Ret (_, (n, s)) => (n, map (entry (g_tg s) 3) [0; 1; 2], map (aget (g_pt s)) [1; 2; 3; 4; 5])
  | Stuck => (0, [], []) end = (2, [85; 86; 0], [86; 86; 87; 87; 86]).
Proof. vm_compute. reflexivity. Qed.
(** The hypotheses of the theorems hold of this mesh, and its sides are not
    frozen. *)
Example square_good : exists adj, hash2 1000 4 6 square = Ret adj /\
  input2 true 4 6 square adj marks0 (acalloc 7 0) points3 /\
  (forall k i, side 4 square k i -> mark marks0 k i 6 = false /\ mark marks0 k i 13 = false).
Proof.
  destruct (hash_2d_fits 1000 4 6 square square_mesh ltac:(lia)) as (adj & E & _). exists adj. split; [exact E|].
  split; [apply square_input; exact E|]. intros k i _. split; reflexivity.
Qed.
