(** Proofs about [MMG2D_setadj]: the marks. *)
From Coq Require Import ZArith List Bool Lia Relations.
From Verif Require Import CBase SurfModel Tria2 Setadj2.
Import ListNotations.
Open Scope Z_scope.

(** ** Marks *)

Lemma tst_pow t n : 0 <= n -> tst t (2 ^ n) = Z.testbit t n.
Proof.
  intros Hn. unfold tst. destruct (Z.testbit t n) eqn:E.
  - destruct (Z.eqb_spec (Z.land t (2 ^ n)) 0) as [Z0|]; [|reflexivity].
    assert (C : Z.testbit (Z.land t (2 ^ n)) n = true) by (rewrite Z.land_spec, E, Z.pow2_bits_true by lia; reflexivity).
    rewrite Z0, Z.bits_0 in C. discriminate.
  - destruct (Z.eqb_spec (Z.land t (2 ^ n)) 0) as [|N]; [reflexivity|]. exfalso. apply N, Z.bits_inj'.
    intros m Hm. rewrite Z.land_spec, Z.bits_0. destruct (Z.eq_dec m n) as [->|Nq]; [rewrite E; reflexivity|].
    rewrite (Z.pow2_bits_false n m) by lia. apply andb_false_r.
Qed.
Lemma t_req t : tst t G_REQ = Z.testbit t 2. Proof. exact (tst_pow t 2 ltac:(lia)). Qed.
Lemma t_geo t : tst t G_GEO = Z.testbit t 1. Proof. exact (tst_pow t 1 ltac:(lia)). Qed.
Lemma t_rf t : tst t G_REF = Z.testbit t 0. Proof. exact (tst_pow t 0 ltac:(lia)). Qed.
Lemma t_par t : tst t G_PAR = Z.testbit t 13. Proof. exact (tst_pow t 13 ltac:(lia)). Qed.

Lemma clr_lor x y : clr (Z.lor x y) = Z.lor (clr x) (clr y).
Proof. unfold clr. apply Z.bits_inj'. intros n Hn. rewrite ?Z.lor_spec, ?Z.ldiff_spec, ?Z.lor_spec, ?Z.ldiff_spec.
  destruct (Z.testbit x n), (Z.testbit y n), (Z.testbit G_REF n), (Z.testbit G_BDY n), (Z.testbit G_GEO n); reflexivity.
Qed.
Lemma clr_idem x : clr (clr x) = clr x.
Proof. unfold clr. apply Z.bits_inj'. intros n Hn. rewrite ?Z.ldiff_spec.
  destruct (Z.testbit x n), (Z.testbit G_REF n), (Z.testbit G_BDY n), (Z.testbit G_GEO n); reflexivity.
Qed.
Lemma clr_bit x n : Z.testbit (clr x) n = Z.testbit x n && negb (Z.testbit G_REF n) && negb (Z.testbit G_BDY n) && negb (Z.testbit G_GEO n).
Proof. unfold clr. rewrite ?Z.ldiff_spec. reflexivity. Qed.

Lemma lor_lor x y : Z.lor (Z.lor x y) y = Z.lor x y.
Proof. rewrite <- Z.lor_assoc, Z.lor_diag. reflexivity. Qed.


(** The marks added at a border and at an interface. *)
Definition adds (tg : Z) : Prop := tg = G_GEO + G_BDY \/ tg = G_REF + G_BDY.
Lemma adds_lor tg : adds tg -> tg + G_REQ + G_NOSURF = Z.lor tg (G_REQ + G_NOSURF).
Proof. intros [->| ->]; reflexivity. Qed.

Lemma frz_has fz x tg : adds tg -> Z.lor (frz fz x tg) tg = frz fz x tg.
Proof.
  intros H. unfold frz. destruct (negb (tst x G_REQ) && fz).
  - rewrite (adds_lor tg H). apply Z.bits_inj'. intros n Hn. rewrite !Z.lor_spec. destruct (Z.testbit x n), (Z.testbit tg n), (Z.testbit (G_REQ + G_NOSURF) n); reflexivity.
  - apply lor_lor.
Qed.
Lemma frz_true_req x tg : adds tg -> tst (frz true x tg) G_REQ = true.
Proof.
  intros H. rewrite t_req. unfold frz. rewrite t_req. destruct (Z.testbit x 2) eqn:E; cbn [negb andb].
  - rewrite Z.lor_spec, E. reflexivity.
  - rewrite (adds_lor tg H), !Z.lor_spec, E. cbn [orb]. change (Z.testbit (G_REQ + G_NOSURF) 2) with true. apply orb_true_r.
Qed.
Lemma frz_idem fz x tg : adds tg -> frz fz (frz fz x tg) tg = frz fz x tg.
Proof.
  intros H. destruct fz.
  - unfold frz at 1. rewrite (frz_true_req x tg H). cbn [negb andb]. apply frz_has. exact H.
  - unfold frz at 1. rewrite andb_false_r. apply frz_has. exact H.
Qed.
Lemma frz_keep fz x tg n : Z.testbit x n = true -> Z.testbit (frz fz x tg) n = true.
Proof. intros E. unfold frz. destruct (_ && _); rewrite Z.lor_spec, E; reflexivity. Qed.
Lemma frz_tg fz x tg n : adds tg -> Z.testbit tg n = true -> Z.testbit (frz fz x tg) n = true.
Proof. intros H E. rewrite <- (frz_has fz x tg H), Z.lor_spec, E. apply orb_true_r. Qed.
Lemma frz_bits fz x tg n : adds tg -> Z.testbit (frz fz x tg) n = true ->
  Z.testbit x n = true \/ Z.testbit tg n = true \/ (fz = true /\ Z.testbit x 2 = false /\ Z.testbit (G_REQ + G_NOSURF) n = true).
Proof.
  intros H. unfold frz. rewrite t_req. destruct (Z.testbit x 2) eqn:E, fz; cbn [negb andb]; rewrite ?(adds_lor tg H), !Z.lor_spec;
    rewrite !orb_true_iff; intuition auto.
Qed.
Lemma frz_nz fz x tg : adds tg -> frz fz x tg <> 0.
Proof.
  intros H E. assert (C : Z.testbit (frz fz x tg) 4 = true) by (apply frz_tg; [exact H | destruct H as [->| ->]; reflexivity]).
  rewrite E, Z.bits_0 in C. discriminate.
Qed.

Lemma merge2_ok strip c d tg : c <> d -> 0 <= c < alen tg -> 0 <= d < alen tg ->
  exists tg', merge2 strip c d tg = Ret tg' /\ alen tg' = alen tg /\
    (forall q, q <> c -> q <> d -> aget tg' q = aget tg q) /\
    let m := if strip then Z.lor (clr (aget tg c)) (clr (aget tg d)) else Z.lor (aget tg c) (aget tg d) in
    aget tg' c = m /\ aget tg' d = m.
Proof.
  intros Ncd Hc Hd.
  assert (Hcd : forall (f : Z -> Z) v, upd f c v d = f d) by (intros; apply upd_other; congruence).
  assert (Hdc : forall (f : Z -> Z) v, upd f d v c = f c) by (intros; apply upd_other; congruence).
  unfold merge2. destruct strip.
  - rewrite rd_ok by exact Hc. cbn [bind]. rewrite wr_ok by exact Hc. cbn [bind].
    rewrite rd_ok by exact Hd. cbn [bind]. rewrite wr_ok by exact Hd. cbn [bind].
    rewrite rd_ok by exact Hc. cbn [bind]. rewrite rd_ok by exact Hd. cbn [bind]. rewrite wr_ok by exact Hd. cbn [bind].
    rewrite rd_ok by exact Hc. cbn [bind]. rewrite rd_ok by exact Hd. cbn [bind]. rewrite wr_ok by exact Hc.
    eexists. split; [reflexivity|]. split; [reflexivity|]. cbn [aget]. split.
    + intros q N1 N2. rewrite !upd_other by congruence. reflexivity.
    + cbv zeta. repeat first [rewrite Hcd | rewrite Hdc | rewrite upd_same].
      split; apply Z.bits_inj'; intros n Hn; rewrite !Z.lor_spec; destruct (Z.testbit (clr (aget tg c)) n), (Z.testbit (clr (aget tg d)) n); reflexivity.
  - cbn [bind]. rewrite rd_ok by exact Hc. cbn [bind]. rewrite rd_ok by exact Hd. cbn [bind]. rewrite wr_ok by exact Hd. cbn [bind].
    rewrite rd_ok by exact Hc. cbn [bind]. rewrite rd_ok by exact Hd. cbn [bind]. rewrite wr_ok by exact Hc.
    eexists. split; [reflexivity|]. split; [reflexivity|]. cbn [aget]. split.
    + intros q N1 N2. rewrite !upd_other by congruence. reflexivity.
    + cbv zeta. repeat first [rewrite Hcd | rewrite Hdc | rewrite upd_same].
      split; apply Z.bits_inj'; intros n Hn; rewrite !Z.lor_spec; destruct (Z.testbit (aget tg c) n), (Z.testbit (aget tg d) n); reflexivity.
Qed.

(** ** Vertices *)

Definition more (w w' : arr Z) : Prop := alen w' = alen w /\ forall v n, Z.testbit (aget w v) n = true -> Z.testbit (aget w' v) n = true.
Lemma more_trans w1 w2 w3 : more w1 w2 -> more w2 w3 -> more w1 w3.
Proof. intros [A B] [C D]. split; [congruence|auto]. Qed.
Lemma more_refl w : more w w. Proof. split; auto. Qed.

Lemma orw_ok w p x : 0 <= p < alen w -> exists w', orw w p x = Ret w' /\ more w w' /\
  (forall n, Z.testbit x n = true -> Z.testbit (aget w' p) n = true) /\
  (forall v n, Z.testbit (aget w' v) n = true -> Z.testbit (aget w v) n = true \/ (v = p /\ Z.testbit x n = true)).
Proof.
  intros Hp. unfold orw. rewrite rd_ok by exact Hp. cbn [bind]. rewrite wr_ok by exact Hp. eexists. split; [reflexivity|].
  unfold more. cbn [aget alen]. split; [split; [reflexivity|]|split].
  - intros v n E. destruct (Z.eq_dec v p) as [->|N]; [rewrite upd_same, Z.lor_spec, E; reflexivity | rewrite upd_other by exact N; exact E].
  - intros n E. rewrite upd_same, Z.lor_spec, E. apply orb_true_r.
  - intros v n. destruct (Z.eq_dec v p) as [->|N]; [|rewrite upd_other by exact N; auto].
    rewrite upd_same, Z.lor_spec, orb_true_iff. intuition.
Qed.
Lemma frw_ok fz w p tg : adds tg -> 0 <= p < alen w -> exists w', frw fz w p tg = Ret w' /\ more w w' /\
  (forall n, Z.testbit tg n = true -> Z.testbit (aget w' p) n = true) /\
  (fz = true -> Z.testbit (aget w' p) 2 = true) /\
  (forall v n, Z.testbit (aget w' v) n = true -> Z.testbit (aget w v) n = true \/
     (v = p /\ (Z.testbit tg n = true \/ (fz = true /\ Z.testbit (aget w p) 2 = false /\ Z.testbit (G_REQ + G_NOSURF) n = true)))).
Proof.
  intros Ht Hp. unfold frw. rewrite rd_ok by exact Hp. cbn [bind]. rewrite wr_ok by exact Hp. eexists. split; [reflexivity|].
  unfold more. cbn [aget alen]. split; [split; [reflexivity|]|split; [|split]].
  - intros v n E. destruct (Z.eq_dec v p) as [->|N]; [rewrite upd_same; apply frz_keep; exact E | rewrite upd_other by exact N; exact E].
  - intros n E. rewrite upd_same. apply frz_tg; assumption.
  - intros ->. rewrite upd_same, <- t_req. apply frz_true_req. exact Ht.
  - intros v n. destruct (Z.eq_dec v p) as [->|N]; [|rewrite upd_other by exact N; auto].
    rewrite upd_same. intros E. destruct (frz_bits _ _ _ _ Ht E) as [|[|]]; auto.
Qed.

(** The marks of the vertices [p], [r] of an edge: [y] when it is one, then the
    addition. *)
Lemma ends_ok (y : Z) w p r : 0 <= p < alen w -> 0 <= r < alen w ->
  exists w', (if edg y then w <- orw w p y ;; orw w r y else Ret w) = Ret w' /\ more w w' /\
   (forall v n, v = p \/ v = r -> edg y = true -> Z.testbit y n = true -> Z.testbit (aget w' v) n = true) /\
   (forall v n, Z.testbit (aget w' v) n = true -> Z.testbit (aget w v) n = true \/ ((v = p \/ v = r) /\ Z.testbit y n = true)).
Proof.
  intros Hp Hr. destruct (edg y).
  - destruct (orw_ok w p y Hp) as (w1 & -> & M1 & B1 & C1). cbn [bind].
    assert (Hr1 : 0 <= r < alen w1) by (rewrite (proj1 M1); exact Hr).
    destruct (orw_ok w1 r y Hr1) as (w2 & -> & M2 & B2 & C2). exists w2. split; [reflexivity|].
    split; [exact (more_trans _ _ _ M1 M2)|]. split.
    + intros v n [->| ->] _ E; [apply M2, B1, E | apply B2, E].
    + intros v n E. destruct (C2 v n E) as [E1|[-> E1]]; [|auto]. destruct (C1 v n E1) as [|[-> ?]]; auto.
  - exists w. split; [reflexivity|]. split; [apply more_refl|]. split; [discriminate|auto].
Qed.
Lemma frws_ok fz w p r tg (A : Type) (f : arr Z -> outcome A) : adds tg -> 0 <= p < alen w -> 0 <= r < alen w ->
  exists w', (w <- frw fz w p tg ;; w <- frw fz w r tg ;; f w) = f w' /\ more w w' /\
   (forall v n, v = p \/ v = r -> Z.testbit tg n = true -> Z.testbit (aget w' v) n = true) /\
   (forall v, v = p \/ v = r -> fz = true -> Z.testbit (aget w' v) 2 = true) /\
   (forall v n, Z.testbit (aget w' v) n = true -> Z.testbit (aget w v) n = true \/
     ((v = p \/ v = r) /\ (Z.testbit tg n = true \/ (fz = true /\ Z.testbit (aget w v) 2 = false /\ Z.testbit (G_REQ + G_NOSURF) n = true)))).
Proof.
  intros Ht Hp Hr. destruct (frw_ok fz w p tg Ht Hp) as (w1 & -> & M1 & B1 & D1 & C1). cbn [bind].
  assert (Hr1 : 0 <= r < alen w1) by (rewrite (proj1 M1); exact Hr).
  destruct (frw_ok fz w1 r tg Ht Hr1) as (w2 & -> & M2 & B2 & D2 & C2). cbn [bind]. exists w2. split; [reflexivity|].
  split; [exact (more_trans _ _ _ M1 M2)|]. split; [|split].
  - intros v n [->| ->] E; [apply M2, B1, E | apply B2, E].
  - intros v [->| ->] E; [apply M2, D1, E | apply D2, E].
  - intros v n E. destruct (C2 v n E) as [E1|[-> [E1|(E1 & E2 & E3)]]].
    + destruct (C1 v n E1) as [|[-> ?]]; auto.
    + auto.
    + right. split; [auto|]. right. split; [exact E1|]. split; [|exact E3].
      destruct (Z.testbit (aget w r) 2) eqn:X; [|reflexivity]. rewrite (proj2 M1 r 2 X) in E2. discriminate.
Qed.

(** ** The marks at the end *)

Definition kf (q : Z) : Z := (q - 1) / 3 + 1.
Definition sf (q : Z) : Z := (q - 1) mod 3.

Lemma kf_cell q : cell (kf q) (sf q) = q.
Proof. unfold cell, kf, sf. pose proof (Z.div_mod (q - 1) 3). lia. Qed.

Section Marks.
Variables (opn nosurf : bool) (nt ntmax : Z) (a : arr tri) (adj tg0 w0 : arr Z).
Definition live (q : Z) : Prop := 1 <= q <= 3 * nt /\ t_v (aget a (kf q)) 0 <> 0.
Definition P (q : Z) : Z := aget adj q - 2.
Definition rf (q : Z) : Z := t_ref (aget a (kf q)).
Definition same (q : Z) : bool := negb opn && (rf q =? rf (P q)).
(** After the exchange. *)
Definition M (q : Z) : Z :=
  if aget adj q =? 0 then aget tg0 q
  else if same q then clr (Z.lor (aget tg0 q) (aget tg0 (P q))) else Z.lor (aget tg0 q) (aget tg0 (P q)).
Definition bnd (q : Z) : bool :=
  negb (aget adj q =? 0) && ((opn && negb (M q =? 0)) || negb (Z.abs (rf (P q)) =? Z.abs (rf q))).
(** At the end. *)
Definition F (q : Z) : Z :=
  if aget adj q =? 0 then frz (nosurf || tst (M q) G_PAR) (M q) (G_GEO + G_BDY)
  else if bnd q then frz nosurf (M q) (G_REF + G_BDY) else M q.
Definition en1 (q : Z) : Z := t_v (aget a (kf q)) (nx (sf q)).
Definition en2 (q : Z) : Z := t_v (aget a (kf q)) (pv (sf q)).
Definition endof (q v : Z) : Prop := v = en1 q \/ v = en2 q.

Hypothesis Hnt : 0 <= nt <= ntmax.
Hypothesis Ha : alen a = ntmax + 1.
Hypothesis Hadj : alen adj = 3 * ntmax + 5.
Hypothesis HA : forall q, live q -> aget adj q = 0 \/ (live (P q) /\ P q <> q /\ aget adj (P q) = q + 2).
Hypothesis HR : forall q, live q -> 0 <= rf q.
Hypothesis HV : forall q, live q -> 0 <= en1 q < alen w0 /\ 0 <= en2 q < alen w0.

Lemma kf_range q : live q -> 1 <= kf q <= nt.
Proof. intros [H _]. unfold kf. pose proof (Z.div_mod (q - 1) 3 ltac:(lia)). pose proof (Z.mod_pos_bound (q - 1) 3 ltac:(lia)). clear -H H0 H1. lia. Qed.
Lemma P_nz q : live q -> aget adj q <> 0 -> live (P q) /\ P q <> q /\ aget adj (P q) = q + 2 /\ P (P q) = q.
Proof. intros L N. destruct (HA q L) as [|(A & B & C)]; [contradiction|]. repeat split; try exact B; try exact C; try apply A. unfold P at 1. rewrite C. lia. Qed.
Lemma A_codes q : live q -> aget adj q <> 0 -> Z.quot (aget adj q) 3 = kf (P q) /\ cell (Z.quot (aget adj q) 3) (Z.rem (aget adj q) 3) = P q.
Proof.
  intros L N. destruct (P_nz q L N) as ([B _] & _). unfold P in *. set (x := aget adj q) in *. clearbody x.
  rewrite Z.quot_div_nonneg, Z.rem_mod_nonneg by lia. split.
  - unfold kf. replace (x - 2 - 1) with (x + (-1) * 3) by lia. rewrite Z.div_add by lia. lia.
  - unfold cell. pose proof (Z.div_mod x 3). lia.
Qed.
Lemma same_sym q : live q -> aget adj q <> 0 -> same (P q) = same q.
Proof. intros L N. destruct (P_nz q L N) as (_ & _ & _ & E). unfold same. rewrite E, Z.eqb_sym. reflexivity. Qed.
Lemma M_sym q : live q -> aget adj q <> 0 -> M (P q) = M q.
Proof.
  intros L N. destruct (P_nz q L N) as (L' & _ & X & E). unfold M. rewrite (same_sym q L N), E.
  destruct (Z.eqb_spec (aget adj q) 0); [contradiction|]. destruct (Z.eqb_spec (aget adj (P q)) 0) as [Y|_]; [destruct L; lia|].
  rewrite Z.lor_comm. reflexivity.
Qed.
Lemma bnd_sym q : live q -> aget adj q <> 0 -> bnd (P q) = bnd q.
Proof.
  intros L N. destruct (P_nz q L N) as (L' & _ & X & E). unfold bnd. rewrite (M_sym q L N), E.
  destruct (Z.eqb_spec (aget adj q) 0); [contradiction|]. destruct (Z.eqb_spec (aget adj (P q)) 0) as [Y|_]; [destruct L; lia|].
  rewrite (Z.eqb_sym (Z.abs (rf q))). reflexivity.
Qed.
Lemma F_sym q : live q -> aget adj q <> 0 -> F (P q) = F q.
Proof.
  intros L N. destruct (P_nz q L N) as (L' & _ & X & E). unfold F. rewrite (M_sym q L N), (bnd_sym q L N).
  destruct (Z.eqb_spec (aget adj q) 0); [contradiction|]. destruct (Z.eqb_spec (aget adj (P q)) 0) as [Y|_]; [destruct L; lia|].
  reflexivity.
Qed.

Lemma add_b : adds (G_GEO + G_BDY). Proof. left. reflexivity. Qed.
Lemma add_i : adds (G_REF + G_BDY). Proof. right. reflexivity. Qed.

Lemma same_bnd q : same q = true -> bnd q = false.
Proof.
  unfold same, bnd. rewrite andb_true_iff, negb_true_iff, Z.eqb_eq. intros [-> ->]. rewrite Z.eqb_refl. cbn. apply andb_false_r.
Qed.
Lemma fin q m : live q -> aget adj q <> 0 -> m = M q \/ m = F q ->
  (opn && (negb (m =? 0) || negb (m =? 0))) || negb (Z.abs (rf (P q)) =? Z.abs (rf q)) = bnd q /\
  (bnd q = true -> frz nosurf m (G_REF + G_BDY) = F q) /\ (bnd q = false -> m = F q).
Proof.
  intros L N G. rewrite orb_diag.
  assert (Fq : F q = if bnd q then frz nosurf (M q) (G_REF + G_BDY) else M q).
  { unfold F. destruct (Z.eqb_spec (aget adj q) 0); [contradiction|reflexivity]. }
  assert (Bq : bnd q = (opn && negb (M q =? 0)) || negb (Z.abs (rf (P q)) =? Z.abs (rf q))).
  { unfold bnd. destruct (Z.eqb_spec (aget adj q) 0); [contradiction|reflexivity]. }
  destruct G as [->|Em].
  - split; [symmetry; exact Bq|]. split; intros B; rewrite Fq, B; reflexivity.
  - destruct (bnd q) eqn:B.
    + rewrite Em, Fq. split; [|split; [|discriminate]].
      * destruct (Z.eqb_spec (frz nosurf (M q) (G_REF + G_BDY)) 0) as [C|_]; [destruct (frz_nz _ _ _ add_i C)|].
        cbn [negb]. symmetry in Bq. rewrite orb_true_iff, andb_true_iff in Bq. rewrite andb_true_r.
        destruct Bq as [[-> _]| ->]; [reflexivity | apply orb_true_r].
      * intros _. apply frz_idem, add_i.
    + rewrite Em, Fq. split; [symmetry; exact Bq|]. split; [discriminate | reflexivity].
Qed.
Lemma same_F q : live q -> aget adj q <> 0 -> same q = true -> F q = M q /\ clr (M q) = M q.
Proof.
  intros L N S. unfold F. rewrite (same_bnd q S). unfold M. destruct (Z.eqb_spec (aget adj q) 0); [contradiction|]. rewrite S.
  split; [reflexivity | apply clr_idem].
Qed.
Lemma M_F q n : Z.testbit (M q) n = true -> Z.testbit (F q) n = true.
Proof. intros E. unfold F. destruct (_ =? 0); [apply frz_keep; exact E|]. destruct (bnd q); [apply frz_keep|]; exact E. Qed.

(** The invariants: [D] is the set of the sides seen. *)
Definition seen (D : Z -> bool) (q : Z) : bool := D q || (negb (aget adj q =? 0) && D (P q)).
Definition TagInv (D : Z -> bool) (tg : arr Z) : Prop :=
  alen tg = 3 * ntmax + 5 /\ forall q, live q -> aget tg q = if seen D q then F q else aget tg0 q.
Record PtInv (D : Z -> bool) (w : arr Z) : Prop := {
  p_more : more w0 w;
  p_snd : forall v n, Z.testbit (aget w v) n = true -> Z.testbit (aget w0 v) n = true \/ exists q, live q /\ endof q v /\ Z.testbit (F q) n = true;
  p_cpl : forall q v n, live q -> D q = true -> endof q v -> In n [0; 1; 2; 4] -> Z.testbit (F q) n = true -> Z.testbit (aget w v) n = true }.

Definition addD (D : Z -> bool) (q : Z) : Z -> bool := fun r => D r || (r =? q).

Lemma edg_bit y n : In n [0; 1; 2] -> Z.testbit y n = true -> edg y = true.
Proof. intros [<-|[<-|[<-|[]]]] E; unfold edg; rewrite t_req, t_geo, t_rf, E; rewrite ?orb_true_r; reflexivity. Qed.

(** The vertices of a side with an addition. *)
Lemma pt_add D w q y fz tg w1 w2 : PtInv D w -> live q -> adds tg -> F q = frz fz y tg ->
  (forall n, Z.testbit y n = true -> Z.testbit (F q) n = true) ->
  (Z.testbit y 2 = false -> Z.testbit (M q) 2 = false) ->
  F q = frz fz (M q) tg ->
  more w w1 ->
  (forall v n, endof q v -> edg y = true -> Z.testbit y n = true -> Z.testbit (aget w1 v) n = true) ->
  (forall v n, Z.testbit (aget w1 v) n = true -> Z.testbit (aget w v) n = true \/ (endof q v /\ Z.testbit y n = true)) ->
  more w1 w2 ->
  (forall v n, endof q v -> Z.testbit tg n = true -> Z.testbit (aget w2 v) n = true) ->
  (forall v, endof q v -> fz = true -> Z.testbit (aget w2 v) 2 = true) ->
  (forall v n, Z.testbit (aget w2 v) n = true -> Z.testbit (aget w1 v) n = true \/
     (endof q v /\ (Z.testbit tg n = true \/ (fz = true /\ Z.testbit (aget w1 v) 2 = false /\ Z.testbit (G_REQ + G_NOSURF) n = true)))) ->
  PtInv (addD D q) w2.
Proof.
  intros I L Ht Fy Yb My Fm M1 B1 C1 M2 B2 D2 C2. constructor.
  - exact (more_trans _ _ _ (p_more _ _ I) (more_trans _ _ _ M1 M2)).
  - intros v n E. destruct (C2 v n E) as [E1|[En [E1|(E1 & E2 & E3)]]].
    + destruct (C1 v n E1) as [E4|[En E4]]; [exact (p_snd _ _ I v n E4)|]. right. exists q. auto.
    + right. exists q. split; [exact L|]. split; [exact En|]. rewrite Fy. apply frz_tg; assumption.
    + right. exists q. split; [exact L|]. split; [exact En|]. rewrite Fm. unfold frz. rewrite t_req, My, E1.
      * cbn [negb andb]. rewrite (adds_lor tg Ht), !Z.lor_spec, E3. rewrite !orb_true_r. reflexivity.
      * destruct (Z.testbit y 2) eqn:Y2; [|reflexivity]. rewrite (B1 v 2 En) in E2; [discriminate | | exact Y2].
        apply (edg_bit y 2); [cbn; tauto | exact Y2].
  - intros r v n Lr Dr En Hn E. unfold addD in Dr. apply orb_true_iff in Dr as [Dr|Dr].
    + apply M2, M1. exact (p_cpl _ _ I r v n Lr Dr En Hn E).
    + apply Z.eqb_eq in Dr as ->. rewrite Fy in E. destruct (frz_bits _ _ _ _ Ht E) as [E1|[E1|(E1 & _ & E3)]].
      * destruct (Z.eq_dec n 4) as [->|N4].
        -- apply B2; [exact En|]. destruct Ht as [->| ->]; reflexivity.
        -- apply M2, B1; [exact En | | exact E1]. apply (edg_bit y n); [|exact E1]. cbn in Hn |- *. clear -Hn N4. intuition congruence.
      * apply B2; assumption.
      * cbn in Hn. destruct Hn as [<-|[<-|[<-|[<-|[]]]]]; try discriminate E3. apply D2; assumption.
Qed.

Lemma tag_step D tg tg' q : TagInv D tg -> live q -> alen tg' = alen tg ->
  aget tg' q = F q -> (aget adj q <> 0 -> aget tg' (P q) = F q) ->
  (forall r, r <> q -> (aget adj q = 0 \/ r <> P q) -> aget tg' r = aget tg r) -> TagInv (addD D q) tg'.
Proof.
  intros [I1 I2] L Al E1 E2 E3. split; [congruence|]. intros r Lr. unfold seen, addD.
  destruct (Z.eqb_spec r q) as [->|N]; [rewrite orb_true_r; exact E1|].
  destruct (Z.eq_dec (aget adj q) 0) as [Z0|N0].
  - rewrite E3 by auto. rewrite I2 by exact Lr. unfold seen. rewrite orb_false_r.
    destruct (Z.eqb_spec (aget adj r) 0) as [|Nr]; [reflexivity|]. destruct (Z.eqb_spec (P r) q) as [Er|_]; [|rewrite orb_false_r; reflexivity].
    destruct (P_nz r Lr Nr) as (_ & _ & X & _). rewrite Er in X. destruct Lr. lia.
  - destruct (P_nz q L N0) as (Lp & Np & X & Pp). destruct (Z.eq_dec r (P q)) as [->|Nr].
    + rewrite (E2 N0), X, Pp, Z.eqb_refl. destruct (Z.eqb_spec (q + 2) 0); [destruct L; lia|]. cbn [negb andb]. rewrite !orb_true_r. symmetry. apply F_sym; assumption.
    + rewrite E3 by auto. rewrite I2 by exact Lr. unfold seen. rewrite orb_false_r.
      destruct (Z.eqb_spec (aget adj r) 0) as [|Nz]; [reflexivity|]. destruct (Z.eqb_spec (P r) q) as [Er|_]; [|rewrite orb_false_r; reflexivity].
      destruct (P_nz r Lr Nz) as (_ & _ & _ & Y). rewrite Er in Y. congruence.
Qed.

Lemma visit2_marks ncc D tg cc w pile q : live q -> D q = false -> TagInv D tg -> PtInv D w ->
  exists tg' w', TagInv (addD D q) tg' /\ PtInv (addD D q) w' /\
   visit2 opn nosurf nt a adj ncc (kf q) (sf q) (mkSt tg cc w pile) =
   if (aget adj q =? 0) || bnd q then Ret (mkSt tg' cc w' pile)
   else
     c <- rd cc (kf (P q)) ;;
     if 0 <? c then Ret (mkSt tg' cc w' pile)
     else p <- push2 nt (kf (P q)) pile ;; cc <- wr cc (kf (P q)) ncc ;; Ret (mkSt tg' cc w' p).
Proof.
  intros L Dq T I. pose proof (kf_range q L) as K. pose proof L as [Lq _]. pose proof T as [Tl Tg].
  assert (Rq : forall r, live r -> 0 <= r < alen tg) by (intros r [Hr _]; rewrite Tl; lia).
  assert (Rw : alen w = alen w0) by (destruct (p_more _ _ I); congruence).
  destruct (HV q L) as [V1 V2]. rewrite <- Rw in V1, V2.
  unfold visit2. cbn [g_tg g_pt g_cc g_pile].
  rewrite (rd_ok a (i := kf q)) by (rewrite Ha; lia). cbn [bind]. rewrite (kf_cell q).
  rewrite (rd_ok adj (i := q)) by (rewrite Hadj; lia). cbn [bind].
  fold (en1 q). fold (en2 q).
  destruct (Z.eqb_spec (aget adj q) 0) as [Z0|N0].
  - cbn [bind orb]. rewrite rd_ok by (apply Rq, L). cbn [bind].
    assert (Ey : aget tg q = M q).
    { rewrite Tg by exact L. unfold seen. rewrite Dq, Z0. cbn [orb andb negb Z.eqb]. unfold M. rewrite Z0. reflexivity. }
    rewrite Ey. destruct (ends_ok (M q) w (en1 q) (en2 q) V1 V2) as (w1 & -> & M1 & B1 & C1). cbn [bind].
    rewrite wr_ok by (apply Rq, L). cbn [bind].
    set (fz := nosurf || tst (M q) G_PAR).
    rewrite <- (proj1 M1) in V1, V2.
    match goal with |- context [mkArr (alen tg) ?f] => set (tg' := mkArr (alen tg) f) end.
    destruct (frws_ok fz w1 (en1 q) (en2 q) (G_GEO + G_BDY) _ (fun w => Ret (mkSt tg' cc w pile)) add_b V1 V2) as (w2 & -> & M2 & B2 & D2 & C2).
    assert (Fq : F q = frz fz (M q) (G_GEO + G_BDY)) by (unfold F; rewrite Z0; reflexivity).
    exists tg', w2. split; [|split; [|reflexivity]].
    + apply (tag_step D tg); [exact T | exact L | reflexivity | | intros C; contradiction | ].
      * cbn [tg' aget]. rewrite upd_same. symmetry. exact Fq.
      * intros r N _. cbn [tg' aget]. apply upd_other. exact N.
    + eapply (pt_add D w q (M q) fz (G_GEO + G_BDY) w1 w2); eauto using add_b, M_F.
  - destruct (P_nz q L N0) as (Lp & Np & X & Pp). destruct (A_codes q L N0) as [K1 K2]. rewrite K2, K1.
    pose proof (kf_range _ Lp) as Kp.
    rewrite (rd_ok a (i := kf (P q))) by (rewrite Ha; lia). cbn [bind orb].
    change (t_ref (aget a (kf q))) with (rf q). change (t_ref (aget a (kf (P q)))) with (rf (P q)). fold (same q).
    destruct (merge2_ok (same q) q (P q) tg (not_eq_sym Np) (Rq q L) (Rq _ Lp)) as (tg1 & -> & T1 & T2 & T3). cbn [bind].
    cbv zeta in T3. destruct T3 as [T3 T4].
    assert (G : aget tg1 q = M q \/ aget tg1 q = F q).
    { rewrite T3, (Tg q L), (Tg _ Lp). unfold seen. rewrite X, Pp, Dq. destruct (Z.eqb_spec (aget adj q) 0); [contradiction|].
      destruct (Z.eqb_spec (q + 2) 0); [lia|]. cbn [negb andb orb]. rewrite orb_false_r. destruct (D (P q)).
      - right. rewrite (F_sym q L N0). destruct (same q) eqn:S; [|apply Z.lor_diag].
        rewrite Z.lor_diag. destruct (same_F q L N0 S) as [-> ->]. reflexivity.
      - left. unfold M. destruct (Z.eqb_spec (aget adj q) 0); [contradiction|]. destruct (same q); [rewrite clr_lor|]; reflexivity. }
    rewrite <- T3 in T4. set (y := aget tg1 q) in *.
    rewrite rd_ok by (rewrite T1; apply Rq, L). cbn [bind]. fold y.
    destruct (ends_ok y w (en1 q) (en2 q) V1 V2) as (w1 & -> & M1 & B1 & C1). cbn [bind].
    rewrite (rd_ok tg1 (i := P q)) by (rewrite T1; apply Rq, Lp). cbn [bind]. rewrite T4.
    change (t_ref (aget a (kf (P q)))) with (rf (P q)).
    destruct (fin q y L N0 G) as (F1 & F2 & F3). rewrite F1.
    assert (Yb : forall n, Z.testbit y n = true -> Z.testbit (F q) n = true).
    { intros n E. destruct G as [G|G]; rewrite G in E; [apply M_F; exact E | exact E]. }
    assert (My : Z.testbit y 2 = false -> Z.testbit (M q) 2 = false).
    { intros E. destruct (Z.testbit (M q) 2) eqn:E2; [|reflexivity]. destruct G as [G|G]; rewrite G in E; [congruence|].
      rewrite (M_F q 2 E2) in E. discriminate. }
    destruct (bnd q) eqn:B.
    + rewrite wr_ok by (rewrite T1; apply Rq, L). cbn [bind]. rewrite rd_ok by (cbn [alen]; rewrite T1; apply Rq, Lp). cbn [bind aget].
      rewrite upd_other by exact Np. rewrite T4.
      rewrite wr_ok by (cbn [alen]; rewrite T1; apply Rq, Lp). cbn [bind]. cbn [alen aget].
      rewrite <- (proj1 M1) in V1, V2. rewrite (F2 eq_refl).
      match goal with |- context [mkArr (alen tg1) ?f] => set (tg' := mkArr (alen tg1) f) end.
      destruct (frws_ok nosurf w1 (en1 q) (en2 q) (G_REF + G_BDY) _ (fun w => Ret (mkSt tg' cc w pile)) add_i V1 V2) as (w2 & -> & M2 & B2 & D2 & C2).
      exists tg', w2. split; [|split; [|reflexivity]].
      * apply (tag_step D tg); [exact T | exact L | exact T1 | | | ]; cbn [tg' aget].
        -- rewrite upd_other by congruence. apply upd_same.
        -- intros _. apply upd_same.
        -- intros r N1 [C|N2]; [contradiction|]. rewrite !upd_other by assumption. apply T2; assumption.
      * eapply (pt_add D w q y nosurf (G_REF + G_BDY) w1 w2); eauto using add_i.
        -- symmetry. apply F2. reflexivity.
        -- unfold F. rewrite B. destruct (Z.eqb_spec (aget adj q) 0); [contradiction|reflexivity].
    + pose proof (F3 eq_refl) as Fy. exists tg1, w1. split; [|split; [|reflexivity]].
      * apply (tag_step D tg); [exact T | exact L | exact T1 | exact Fy | intros _; rewrite T4; exact Fy |].
        intros r N1 [C|N2]; [contradiction|]. apply T2; assumption.
      * constructor.
        -- exact (more_trans _ _ _ (p_more _ _ I) M1).
        -- intros v n E. destruct (C1 v n E) as [E1|[En E1]]; [exact (p_snd _ _ I v n E1)|]. right. exists q. split; [exact L|]. split; [exact En|]. apply Yb. exact E1.
        -- intros r v n Lr Dr En Hn E. unfold addD in Dr. apply orb_true_iff in Dr as [Dr|Dr].
           ++ apply M1. exact (p_cpl _ _ I r v n Lr Dr En Hn E).
           ++ apply Z.eqb_eq in Dr as ->. destruct (Z.eq_dec n 4) as [->|N4].
              ** exfalso. unfold F in E. rewrite B in E. destruct (Z.eqb_spec (aget adj q) 0) in E; [contradiction|].
                 unfold bnd in B. destruct (Z.eqb_spec (aget adj q) 0) in B; [contradiction|]. cbn [negb andb] in B.
                 apply orb_false_iff in B as [B0 B3]. apply negb_false_iff, Z.eqb_eq in B3.
                 rewrite (Z.abs_eq (rf q)), (Z.abs_eq (rf (P q))) in B3 by (apply HR; assumption).
                 destruct opn eqn:Eo.
                 --- cbn [andb] in B0. apply negb_false_iff, Z.eqb_eq in B0. rewrite B0, Z.bits_0 in E. discriminate.
                 --- unfold M in E. destruct (Z.eqb_spec (aget adj q) 0) in E; [contradiction|].
                     unfold same in E. rewrite Eo, B3, Z.eqb_refl in E. cbn [negb andb] in E. rewrite clr_bit in E.
                     change (Z.testbit G_BDY 4) with true in E. rewrite andb_false_r in E. discriminate.
              ** apply B1; [exact En | | rewrite Fy; exact E]. apply (edg_bit y n); [|rewrite Fy; exact E].
                 cbn in Hn |- *. clear -Hn N4. intuition congruence.
Qed.
End Marks.
