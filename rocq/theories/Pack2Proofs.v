(** Invariants of the compaction of [MMG2D_pack]. *)
From Coq Require Import ZArith List Bool Lia.
From Verif Require Import CBase SurfModel Tria2 Tria2Edges Pack2.
Import ListNotations.
Open Scope Z_scope.

(** ** Ranks *)

(** Number of selected numbers in [1..k]. *)
Definition rank (P : Z -> bool) (k : Z) : Z :=
  Z.of_nat (length (filter (fun n => P (Z.of_nat n)) (seq 1 (Z.to_nat k)))).

Lemma rank_0 P : rank P 0 = 0.
Proof. reflexivity. Qed.

Lemma rank_next P k : 0 <= k -> rank P (k + 1) = rank P k + (if P (k + 1) then 1 else 0).
Proof.
  intros H. unfold rank. replace (Z.to_nat (k + 1)) with (S (Z.to_nat k)) by lia.
  rewrite seq_S, filter_app, app_length. cbn [filter].
  replace (Z.of_nat (1 + Z.to_nat k)) with (k + 1) by lia.
  destruct (P (k + 1)); cbn [length]; lia.
Qed.

Lemma rank_at P k : 1 <= k -> rank P k = rank P (k - 1) + (if P k then 1 else 0).
Proof. intros H. pose proof (rank_next P (k - 1) ltac:(lia)) as E. replace (k - 1 + 1) with k in E by lia. exact E. Qed.

Lemma rank_bounds P k : 0 <= k -> 0 <= rank P k <= k.
Proof.
  revert k. apply natlike_ind; [rewrite rank_0; lia|].
  intros k Hk IH. replace (Z.succ k) with (k + 1) by lia. rewrite rank_next by lia. destruct (P (k + 1)); lia.
Qed.

Lemma rank_mono P k l : 0 <= k <= l -> rank P k <= rank P l.
Proof.
  intros H. replace l with (k + (l - k)) by lia. assert (0 <= l - k) as D by lia. revert D. generalize (l - k).
  apply natlike_ind; [replace (k + 0) with k by lia; lia|].
  intros x Hx IH. replace (k + Z.succ x) with (k + x + 1) by lia. rewrite rank_next by lia. destruct (P (k + x + 1)); lia.
Qed.

Lemma rank_lt P k l : 0 <= k < l -> P l = true -> rank P k < rank P l.
Proof. intros H T. rewrite (rank_at P l) by lia. rewrite T. pose proof (rank_mono P k (l - 1) ltac:(lia)). lia. Qed.

Lemma rank_inj P k l : 1 <= k -> 1 <= l -> P k = true -> P l = true -> rank P k = rank P l -> k = l.
Proof.
  intros H1 H2 T1 T2 E. destruct (Z.lt_total k l) as [C|[C|C]]; [|exact C|].
  - pose proof (rank_lt P k l ltac:(lia) T2). lia.
  - pose proof (rank_lt P l k ltac:(lia) T1). lia.
Qed.

Lemma rank_onto P n j : 0 <= n -> 1 <= j <= rank P n -> exists k, 1 <= k <= n /\ P k = true /\ rank P k = j.
Proof.
  revert n. apply (natlike_ind (fun n => 1 <= j <= rank P n -> exists k, 1 <= k <= n /\ P k = true /\ rank P k = j)).
  - rewrite rank_0. lia.
  - intros n Hn IH Hj. replace (Z.succ n) with (n + 1) in * by lia.
    pose proof (rank_next P n Hn) as E. destruct (P (n + 1)) eqn:T.
    + destruct (Z.eq_dec j (rank P (n + 1))) as [->|N].
      * exists (n + 1). split; [lia|]. split; [exact T | reflexivity].
      * destruct IH as (k & A & B & C); [lia|]. exists k. split; [lia|]. split; assumption.
    + destruct IH as (k & A & B & C); [lia|]. exists k. split; [lia|]. split; assumption.
Qed.

Lemma rank_ext P Q n : (forall k, 1 <= k <= n -> P k = Q k) -> rank P n = rank Q n.
Proof.
  intros H. unfold rank. f_equal. f_equal. apply filter_ext_in. intros x Hx. apply in_seq in Hx. apply H. lia.
Qed.

(** ** Vertices *)

Section Verts.
Variables (np : Z) (w0 : arr vert).
Hypotheses (Hnp : 0 <= np) (Hlen : np < alen w0).

Definition U (k : Z) : bool := w_ok (aget w0 k).
Definition RV : Z -> Z := rank U.

Definition marked (p : vert) (n : Z) : vert := mkVt (thaw (w_tag p)) n (w_dat p).

Definition Mk (k : Z) (st : arr vert * Z * Z) : Prop :=
  alen (fst (fst st)) = alen w0 /\ snd (fst st) = RV (k - 1) /\
  (forall l, aget (fst (fst st)) l = if (1 <=? l) && (l <? k) && U l then marked (aget w0 l) (RV l) else aget w0 l).

Lemma mark2_ok : exists w nc, mark2 np w0 = Ret (w, RV np, nc) /\ alen w = alen w0 /\
  (forall l, aget w l = if (1 <=? l) && (l <=? np) && U l then marked (aget w0 l) (RV l) else aget w0 l).
Proof.
  unfold mark2.
  destruct (@for_range_inv _ Mk (fun k st =>
    let '(w, n, nc) := st in
    p <- rd w k ;;
    if w_ok p then
      w <- wr w k (mkVt (thaw (w_tag p)) (n + 1) (w_dat p)) ;;
      Ret (w, n + 1, if tst (w_tag p) G_CRN then nc + 1 else nc)
    else Ret st) 1 np (w0, 0, 0) ltac:(lia)) as (((w & n) & nc) & E & A & B & C).
  - split; [reflexivity|]. split; [reflexivity|]. intros l. cbn [fst].
    destruct (Z.leb_spec 1 l), (Z.ltb_spec l 1); cbn [andb]; try reflexivity; lia.
  - intros k ((w & n) & nc) Hk (A & B & C). cbn [fst snd] in A, B, C.
    rewrite rd_ok by lia. cbn [bind]. rewrite (C k).
    replace (k <? k) with false by (symmetry; apply Z.ltb_irrefl). rewrite andb_false_r. cbn [andb].
    change (w_ok (aget w0 k)) with (U k). pose proof (rank_at U k ltac:(lia)) as RA. fold RV in RA.
    destruct (U k) eqn:Ek.
    + rewrite wr_ok by lia. cbn [bind]. eexists. split; [reflexivity|]. split; [exact A|]. split; [cbn [fst snd]; replace (k + 1 - 1) with k by lia; lia|].
      intros l. cbn [fst snd aget]. destruct (Z.eq_dec l k) as [->|N].
      * rewrite upd_same. replace (1 <=? k) with true by (symmetry; apply Z.leb_le; lia).
        replace (k <? k + 1) with true by (symmetry; apply Z.ltb_lt; lia). rewrite Ek. cbn [andb]. unfold marked. f_equal. lia.
      * rewrite upd_other by congruence. rewrite C. replace (l <? k + 1) with (l <? k); [reflexivity|].
        destruct (Z.ltb_spec l k), (Z.ltb_spec l (k + 1)); try reflexivity; lia.
    + eexists. split; [reflexivity|]. split; [exact A|]. split; [cbn [fst snd]; replace (k + 1 - 1) with k by lia; lia|].
      intros l. cbn [fst snd]. rewrite C. destruct (Z.eq_dec l k) as [->|N]; [rewrite Ek, !andb_false_r; reflexivity|].
      replace (l <? k + 1) with (l <? k); [reflexivity|]. destruct (Z.ltb_spec l k), (Z.ltb_spec l (k + 1)); try reflexivity; lia.
  - cbn [fst snd] in A, B, C. exists w, nc. replace (np + 1 - 1) with np in B by lia. rewrite E, B. split; [reflexivity|].
    split; [exact A|]. intros l. rewrite C. replace (l <? np + 1) with (l <=? np); [reflexivity|].
    destruct (Z.leb_spec l np), (Z.ltb_spec l (np + 1)); try reflexivity; lia.
Qed.

(** [thaw] keeps a used vertex used, as long as tags are not negative. *)
Lemma thaw_ok p : 0 <= w_tag p -> w_ok p = true -> w_ok (mkVt (thaw (w_tag p)) (w_tmp p) (w_dat p)) = true.
Proof.
  clear. unfold w_ok. cbn [w_tag]. intros H0 H. apply Z.ltb_lt in H. apply Z.ltb_lt. unfold thaw.
  destruct (tst (w_tag p) G_NOSURF); [|exact H].
  assert (Q : forall x y, 0 <= x -> 0 <= y -> 0 <= Z.ldiff x y <= x).
  { intros x y Hx Hy. split; [apply Z.ldiff_nonneg; left; exact Hx|]. apply Z.ldiff_le; [|].
    - exact Hx.
    - apply Z.bits_inj'. intros n Hn. rewrite !Z.ldiff_spec, Z.bits_0. destruct (Z.testbit x n), (Z.testbit y n); reflexivity. }
  pose proof (Q (w_tag p) G_REQ H0 ltac:(unfold G_REQ; lia)). pose proof (Q (Z.ldiff (w_tag p) G_REQ) G_NOSURF ltac:(lia) ltac:(unfold G_NOSURF; lia)). lia.
Qed.
End Verts.

(** Values of a solution. *)
Section Vals.
Variables (np size : Z) (w : arr vert) (m0 : arr Z).
Hypotheses (Hnp : 0 <= np) (Hlen : np < alen w) (Hsz : 0 < size) (Hm : (np + 1) * size <= alen m0).
Let V (k : Z) : bool := w_ok (aget w k).

Definition Vl (k : Z) (st : arr Z * Z) : Prop :=
  alen (fst st) = alen m0 /\ snd st = rank V (k - 1) + 1 /\
  (forall l i, 1 <= l < k -> V l = true -> 0 <= i < size -> aget (fst st) (rank V l * size + i) = aget m0 (l * size + i)) /\
  (forall x, k * size <= x -> aget (fst st) x = aget m0 x).

Lemma pack_vals_ok : exists m nbl, pack_vals np size w m0 = Ret (m, nbl) /\ alen m = alen m0 /\
  (forall l i, 1 <= l <= np -> V l = true -> 0 <= i < size -> aget m (rank V l * size + i) = aget m0 (l * size + i)).
Proof.
  unfold pack_vals.
  match goal with |- context [for_range 1 np ?f (m0, 1)] =>
    destruct (@for_range_inv _ Vl f 1 np (m0, 1) ltac:(lia)) as ((m & nbl) & E & A & B & C & D) end.
  - split; [reflexivity|]. split; [reflexivity|]. split; [lia | reflexivity].
  - intros k (m & nbl) Hk (A & B & C & D). cbn [fst snd] in A, B, C, D.
    rewrite rd_ok by lia. cbn [bind]. pose proof (rank_at V k ltac:(lia)) as RA. pose proof (rank_bounds V (k - 1) ltac:(lia)) as RB.
    change (w_ok (aget w k)) with (V k). destruct (V k) eqn:Ek.
    + set (P := fun i (m' : arr Z) => alen m' = alen m0 /\
        (forall x, x < nbl * size \/ nbl * size + i <= x -> aget m' x = aget m x) /\
        (forall j, 0 <= j < i -> aget m' (nbl * size + j) = aget m (k * size + j))).
      assert (LK : (k + 1) * size <= (np + 1) * size) by (apply Z.mul_le_mono_nonneg_r; lia).
      destruct (@for_range_inv _ P (fun i m => x <- rd m (k * size + i) ;; wr m (nbl * size + i) x) 0 (size - 1) m ltac:(lia)) as (m1 & E1 & P1 & P2 & P3).
      * split; [exact A|]. split; [reflexivity | lia].
      * intros i m' Hi (Q1 & Q2 & Q3).
        assert (LN : nbl * size <= k * size) by (apply Z.mul_le_mono_nonneg_r; lia).
        assert (0 <= nbl * size) by (apply Z.mul_nonneg_nonneg; lia).
        rewrite rd_ok by lia. cbn [bind]. rewrite wr_ok by lia.
        eexists. split; [reflexivity|]. split; [exact Q1|]. split.
        -- intros x Hx. cbn [aget]. rewrite upd_other by lia. apply Q2. lia.
        -- intros j Hj. cbn [aget]. destruct (Z.eq_dec j i) as [->|N].
           ++ rewrite upd_same. apply Q2. right. lia.
           ++ rewrite upd_other by lia. apply Q3. lia.
      * rewrite E1. cbn [bind]. replace (size - 1 + 1) with size in * by lia.
        eexists. split; [reflexivity|]. split; [exact P1|]. cbn [fst snd]. replace (k + 1 - 1) with k by lia. split; [lia|].
        assert (RN : rank V k = nbl) by lia. split.
        -- intros l i Hl Vll Hi. destruct (Z.eq_dec l k) as [->|N].
           ++ rewrite RN, P3 by lia. apply D. lia.
           ++ pose proof (rank_lt V l k ltac:(lia) Ek).
              rewrite P2; [apply C; [lia | assumption | assumption]|]. left.
              assert ((rank V l + 1) * size <= nbl * size) by (apply Z.mul_le_mono_nonneg_r; lia). lia.
        -- intros x Hx. assert (nbl * size <= k * size) by (apply Z.mul_le_mono_nonneg_r; lia).
           rewrite P2 by lia. apply D. lia.
    + eexists. split; [reflexivity|]. split; [exact A|]. cbn [fst snd]. replace (k + 1 - 1) with k by lia. split; [lia|]. split.
      * intros l i Hl Vll Hi. apply C; [|assumption|assumption]. assert (l <> k) by congruence. lia.
      * intros x Hx. apply D. lia.
  - exists m, nbl. split; [exact E|]. split; [exact A|]. intros l i Hl. apply C. cbn [fst]. lia.
Qed.
End Vals.

Section PackVerts.
Variables (np : Z) (w0 : arr vert).
Hypotheses (Hnp : 0 <= np) (Hlen : np < alen w0).
Let V (k : Z) : bool := w_ok (aget w0 k).
Hypothesis Htmp : forall k, 1 <= k <= np -> V k = true -> w_tmp (aget w0 k) = rank V k.

Definition Pv (k : Z) (st : arr vert * Z * Z) : Prop :=
  alen (fst (fst st)) = alen w0 /\ snd (fst st) = rank V (k - 1) /\ snd st = rank V (k - 1) + 1 /\
  (forall l, 1 <= l < k -> V l = true -> aget (fst (fst st)) (rank V l) = aget w0 l) /\
  (forall l, k <= l -> aget (fst (fst st)) l = aget w0 l).

Lemma pack_verts_ok : exists w nbl, pack_verts np w0 = Ret (w, rank V np, nbl) /\ alen w = alen w0 /\
  (forall l, 1 <= l <= np -> V l = true -> aget w (rank V l) = aget w0 l) /\
  (forall l, np < l -> aget w l = aget w0 l).
Proof.
  unfold pack_verts.
  match goal with |- context [for_range 1 np ?f (w0, 0, 1)] =>
    destruct (@for_range_inv _ Pv f 1 np (w0, 0, 1) ltac:(lia)) as (((w & n) & nbl) & E & A & B & C & D & F) end.
  - split; [reflexivity|]. split; [reflexivity|]. split; [reflexivity|]. split; [lia | reflexivity].
  - intros k ((w & n) & nbl) Hk (A & B & C & D & F). cbn [fst snd] in A, B, C, D, F.
    rewrite rd_ok by lia. cbn [bind]. rewrite (F k ltac:(lia)). pose proof (rank_at V k ltac:(lia)) as RA. pose proof (rank_bounds V (k - 1) ltac:(lia)) as RB.
    change (w_ok (aget w0 k)) with (V k). destruct (V k) eqn:Ek.
    + destruct (Z.eqb_spec k nbl) as [En|Nn].
      * eexists. split; [reflexivity|]. split; [exact A|]. cbn [fst snd]. replace (k + 1 - 1) with k by lia. split; [lia|]. split; [lia|]. split.
        -- intros l Hl Vll. destruct (Z.eq_dec l k) as [->|N]; [|apply D; [lia | assumption]].
           replace (rank V k) with k by lia. apply F. lia.
        -- intros l Hl. apply F. lia.
      * rewrite wr_ok by lia. cbn [bind]. rewrite (Htmp k Hk Ek). replace (rank V k =? nbl) with true by (symmetry; apply Z.eqb_eq; lia).
        cbn [c_assert bind]. rewrite wr_ok by (cbn [alen]; lia). cbn [bind].
        eexists. split; [reflexivity|]. split; [exact A|]. cbn [fst snd]. replace (k + 1 - 1) with k by lia. split; [lia|]. split; [lia|]. split.
        -- intros l Hl Vll. cbn [aget]. pose proof (rank_mono V l k ltac:(lia)). rewrite upd_other by lia.
           destruct (Z.eq_dec l k) as [->|N]; [replace (rank V k) with nbl by lia; apply upd_same|].
           pose proof (rank_lt V l k ltac:(lia) Ek). rewrite upd_other by lia. apply D; [lia | assumption].
        -- intros l Hl. cbn [aget]. rewrite !upd_other by lia. apply F. lia.
    + eexists. split; [reflexivity|]. split; [exact A|]. cbn [fst snd]. replace (k + 1 - 1) with k by lia. split; [lia|]. split; [lia|]. split.
      * intros l Hl Vll. apply D; [|assumption]. assert (l <> k) by congruence. lia.
      * intros l Hl. apply F. lia.
  - cbn [fst snd] in *. exists w, nbl. replace (np + 1 - 1) with np in * by lia. rewrite E, B. split; [reflexivity|]. split; [exact A|].
    split; [intros l Hl; apply D; lia | intros l Hl; apply F; lia].
Qed.
End PackVerts.

(** Free cells. *)
Lemma free_verts_ok np npmax w0 : 0 <= np -> np <= npmax -> alen w0 = npmax + 1 ->
  exists w, free_verts np npmax w0 = Ret (w, if np <? npmax - 3 then np + 1 else 0) /\ alen w = alen w0 /\
    (forall k, 1 <= k <= np -> aget w k = mkVt (w_tag (aget w0 k)) 0 (w_dat (aget w0 k))) /\
    (forall k, np < k -> w_tag (aget w k) = w_tag (aget w0 k) /\ w_dat (aget w k) = w_dat (aget w0 k)) /\
    (forall k, np < k -> w_tmp (aget w k) = if (np <? npmax - 3) && (k <=? npmax - 2) then k + 1 else w_tmp (aget w0 k)).
Proof.
  intros H0 H1 HL. unfold free_verts.
  destruct (@for_range_inv _ (fun k w => alen w = alen w0 /\
      (forall l, 1 <= l < k -> aget w l = mkVt (w_tag (aget w0 l)) 0 (w_dat (aget w0 l))) /\
      (forall l, k <= l -> aget w l = aget w0 l))
    (fun k w => p <- rd w k ;; wr w k (mkVt (w_tag p) 0 (w_dat p))) 1 np w0 ltac:(lia)) as (w1 & E1 & A & B & C).
  - split; [reflexivity|]. split; [lia | reflexivity].
  - intros k w Hk (A & B & C). rewrite rd_ok by lia. cbn [bind]. rewrite wr_ok by lia. eexists. split; [reflexivity|].
    split; [exact A|]. split.
    + intros l Hl. cbn [aget]. destruct (Z.eq_dec l k) as [->|N]; [rewrite upd_same, C by lia; reflexivity|].
      rewrite upd_other by lia. apply B. lia.
    + intros l Hl. cbn [aget]. rewrite upd_other by lia. apply C. lia.
  - rewrite E1. cbn [bind]. destruct (Z.ltb_spec np (npmax - 3)) as [L|L].
    + destruct (@for_range_inv _ (fun k w => alen w = alen w0 /\
        (forall l, 1 <= l <= np -> aget w l = aget w1 l) /\
        (forall l, np < l < k -> w_tag (aget w l) = w_tag (aget w0 l) /\ w_dat (aget w l) = w_dat (aget w0 l) /\ w_tmp (aget w l) = l + 1) /\
        (forall l, k <= l -> aget w l = aget w0 l))
      (fun k w => p <- rd w k ;; wr w k (mkVt (w_tag p) (k + 1) (w_dat p))) (np + 1) (npmax - 2) w1 ltac:(lia)) as (w2 & E2 & A2 & B2 & C2 & D2).
      * split; [exact A|]. split; [reflexivity|]. split; [lia|]. intros l Hl. apply C. lia.
      * intros k w Hk (A2 & B2 & C2 & D2). rewrite rd_ok by lia. cbn [bind]. rewrite wr_ok by lia. eexists. split; [reflexivity|].
        split; [exact A2|]. split; [|split].
        -- intros l Hl. cbn [aget]. rewrite upd_other by lia. apply B2. lia.
        -- intros l Hl. cbn [aget]. destruct (Z.eq_dec l k) as [->|N]; [rewrite upd_same, D2 by lia; cbn; auto|].
           rewrite upd_other by lia. apply C2. lia.
        -- intros l Hl. cbn [aget]. rewrite upd_other by lia. apply D2. lia.
      * rewrite E2. cbn [bind]. exists w2. split; [reflexivity|]. split; [exact A2|]. split; [|split].
        -- intros k Hk. rewrite B2 by lia. apply B. lia.
        -- intros k Hk. destruct (Z.le_gt_cases k (npmax - 2)); [destruct (C2 k ltac:(lia)) as (X & Y & _); split; assumption|].
           rewrite D2 by lia. split; reflexivity.
        -- intros k Hk. cbn [andb]. destruct (Z.leb_spec k (npmax - 2)); [destruct (C2 k ltac:(lia)) as (_ & _ & X); exact X|].
           rewrite D2 by lia. reflexivity.
    + exists w1. split; [reflexivity|]. split; [exact A|]. split; [intros k Hk; apply B; lia|]. split.
      * intros k Hk. rewrite C by lia. split; reflexivity.
      * intros k Hk. rewrite C by lia. reflexivity.
Qed.

Lemma free_tris_ok nt ntmax a0 : 0 <= nt -> nt <= ntmax -> alen a0 = ntmax + 1 ->
  exists a, free_tris nt ntmax a0 = Ret (a, if nt <? ntmax - 3 then nt + 1 else 0) /\ alen a = alen a0 /\
    (forall k, k <= nt -> aget a k = aget a0 k) /\
    (forall k, nt < k -> t_v (aget a k) 0 = t_v (aget a0 k) 0) /\
    (forall k, nt < k -> t_v (aget a k) 2 = if (nt <? ntmax - 3) && (k <=? ntmax - 2) then k + 1 else t_v (aget a0 k) 2).
Proof.
  intros H0 H1 HL. unfold free_tris. destruct (Z.ltb_spec nt (ntmax - 3)) as [L|L].
  - destruct (@for_range_inv _ (fun k a => alen a = alen a0 /\
        (forall l, nt < l < k -> t_v (aget a l) 0 = t_v (aget a0 l) 0 /\ t_v (aget a l) 2 = l + 1) /\
        (forall l, l <= nt \/ k <= l -> aget a l = aget a0 l))
      (fun k a => t <- rd a k ;; wr a k (mkTri (upd (t_v t) 2 (k + 1)) (t_tag t) (t_edg t) (t_ref t))) (nt + 1) (ntmax - 2) a0 ltac:(lia)) as (a & E & A & B & C).
    + split; [reflexivity|]. split; [lia | reflexivity].
    + intros k a Hk (A & B & C). rewrite rd_ok by lia. cbn [bind]. rewrite wr_ok by lia. eexists. split; [reflexivity|].
      split; [exact A|]. split.
      * intros l Hl. cbn [aget]. destruct (Z.eq_dec l k) as [->|N].
        -- rewrite upd_same. cbn [t_v]. rewrite upd_same, upd_other by lia. rewrite C by lia. split; reflexivity.
        -- rewrite upd_other by lia. apply B. lia.
      * intros l Hl. cbn [aget]. rewrite upd_other by lia. apply C. lia.
    + rewrite E. cbn [bind]. exists a. split; [reflexivity|]. split; [exact A|]. split; [intros k Hk; apply C; lia|]. split.
      * intros k Hk. destruct (Z.le_gt_cases k (ntmax - 2)); [apply B; lia|]. rewrite C by lia. reflexivity.
      * intros k Hk. cbn [andb]. destruct (Z.leb_spec k (ntmax - 2)); [apply B; lia|]. rewrite C by lia. reflexivity.
  - exists a0. split; [reflexivity|]. split; [reflexivity|]. split; [reflexivity|]. split; [reflexivity|]. reflexivity.
Qed.
