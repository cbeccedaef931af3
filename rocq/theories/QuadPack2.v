(** The edges of the quadrilaterals in [MMG2D_pack]
    (/repo/src/mmg2d/hash_2d.c:612-639, 694-730), after those of the triangles
    ([pack_edges] of Tria2.v).

    The references, the marks and the references of the sides are kept in arrays
    beside the quadrilaterals ([4*(k-1)+1+i] for the side [i] of [k]).
    Simplified: the part of the table of edges that follows the edges of the
    triangles is a list; its size is checked.  Not modelled: the failure of the
    allocation, the field [base]. *)
From Coq Require Import ZArith List Bool Lia.
From Verif Require Import CBase SurfModel Tria2 Tria2Edges Quad2.
Import ListNotations.
Open Scope Z_scope.

Definition qcell (k i : Z) : Z := 4 * (k - 1) + 1 + i.

Section QuadPack.
(** [info.opnbdy], number of quadrilaterals, quadrilaterals, adjacencies,
    references, marks and references of the sides. *)
Variables (opn : bool) (nq : Z) (a : arr quad) (adj rf tg ed : arr Z).

(** First pass (hash_2d.c:612-639). *)
Definition count_quads (na : Z) : outcome Z :=
  for_range 1 nq (fun k na =>
    q <- rd a k ;;
    if 0 <? q_v q 0 then
      for_range 0 3 (fun i na =>
        x <- rd adj (qcell k i) ;;
        let iel := Z.quot x 4 in
        if iel <? 0 then Ret na
        else
          r <- rd rf k ;; r1 <- rd rf iel ;; t <- rd tg (qcell k i) ;;
          b <- counted opn iel r r1 t ;;
          Ret (if b : bool then na + 1 else na)) na
    else Ret na) na.

(** Second pass (hash_2d.c:694-730); there is place for [room] edges. *)
Definition store_quads (room : Z) : outcome (list edge) :=
  for_range 1 nq (fun k l =>
    q <- rd a k ;;
    if 0 <? q_v q 0 then
      for_range 0 3 (fun i l =>
        x <- rd adj (qcell k i) ;;
        let iel := Z.quot x 4 in
        if iel <? 0 then Ret l
        else
          r <- rd rf k ;; r1 <- rd rf iel ;; t <- rd tg (qcell k i) ;;
          if stored opn iel r r1 t then
            e <- rd ed (qcell k i) ;;
            _ <- c_assert (Z.of_nat (length l) + 1 <=? room) ;;
            Ret (l ++ [mkE (q_v q (qa i)) (q_v q (qb i)) e t])
          else Ret l) l
    else Ret l) [].

(** Both passes, [na] edges come from the triangles. *)
Definition pack_quads (na : Z) : outcome (Z * list edge) :=
  na' <- count_quads na ;;
  l <- store_quads (na' - na) ;;
  Ret (na', l).

(** ** Correctness *)

(** [0; ...; n-1] and [1; ...; n-1] *)
Definition zs (n : Z) : list Z := map Z.of_nat (seq 0 (Z.to_nat n)).
Definition zs1 (n : Z) : list Z := map Z.of_nat (seq 1 (Z.to_nat (n - 1))).

Lemma zs_snoc n : 0 <= n -> zs (n + 1) = zs n ++ [n].
Proof.
  clear. intros H. unfold zs. replace (Z.to_nat (n + 1)) with (S (Z.to_nat n)) by lia.
  rewrite seq_S, map_app. cbn [map]. f_equal. f_equal. lia.
Qed.
Lemma zs1_snoc n : 1 <= n -> zs1 (n + 1) = zs1 n ++ [n].
Proof.
  clear. intros H. unfold zs1. replace (Z.to_nat (n + 1 - 1)) with (S (Z.to_nat (n - 1))) by lia.
  rewrite seq_S, map_app. cbn [map]. f_equal. f_equal. lia.
Qed.
Lemma in_zs n x : In x (zs n) <-> 0 <= x < n.
Proof.
  clear. unfold zs. rewrite in_map_iff. split.
  - intros (m & <- & H). apply in_seq in H. lia.
  - intros H. exists (Z.to_nat x). split; [lia|]. apply in_seq. lia.
Qed.
Lemma in_zs1 n x : In x (zs1 n) <-> 1 <= x < n.
Proof.
  clear. unfold zs1. rewrite in_map_iff. split.
  - intros (m & <- & H). apply in_seq in H. lia.
  - intros H. exists (Z.to_nat x). split; [lia|]. apply in_seq. lia.
Qed.

(** Whether the side is kept. *)
Definition keep (p : Z * Z) : bool :=
  let '(k, i) := p in
  let iel := Z.quot (aget adj (qcell k i)) 4 in
  (0 <? q_v (aget a k) 0) && negb (iel <? 0) && stored opn iel (aget rf k) (aget rf iel) (aget tg (qcell k i)).
Definition edge_of (p : Z * Z) : edge :=
  let '(k, i) := p in
  mkE (q_v (aget a k) (qa i)) (q_v (aget a k) (qb i)) (aget ed (qcell k i)) (aget tg (qcell k i)).
(** The sides before [(k,i)], in order. *)
Definition before (k i : Z) : list (Z * Z) := flat_map (fun k => map (pair k) (zs 4)) (zs1 k) ++ map (pair k) (zs i).

Lemma before_i k i : 0 <= i -> before k (i + 1) = before k i ++ [(k, i)].
Proof. clear. intros H. unfold before. rewrite (zs_snoc i H), map_app, app_assoc. reflexivity. Qed.
Lemma before_k k : 1 <= k -> before (k + 1) 0 = before k 4.
Proof.
  clear. intros H. unfold before. rewrite (zs1_snoc k H), flat_map_app. cbn [flat_map].
  change (zs 0) with (@nil Z). cbn [map]. rewrite !app_nil_r. reflexivity.
Qed.
Lemma in_before k i l j : In (l, j) (before k i) <-> (1 <= l < k /\ 0 <= j < 4) \/ (l = k /\ 0 <= j < i).
Proof.
  clear. unfold before. rewrite in_app_iff, in_flat_map, in_map_iff. split.
  - intros [(x & X1 & X2)|(x & E & X)].
    + apply in_zs1 in X1. apply in_map_iff in X2. destruct X2 as (y & E & Y). apply in_zs in Y. inversion E; subst. auto.
    + apply in_zs in X. inversion E; subst. auto.
  - intros [[A B]|[-> B]].
    + left. exists l. split; [apply in_zs1; exact A|]. apply in_map_iff. exists j. split; [reflexivity | apply in_zs; exact B].
    + right. exists j. split; [reflexivity | apply in_zs; exact B].
Qed.

Hypothesis Hnq : 0 <= nq < alen a.
Hypothesis Ha : 4 * nq < alen adj.
Hypothesis Hr : nq < alen rf.
Hypothesis Ht : 4 * nq < alen tg.
Hypothesis He : 4 * nq < alen ed.
Hypothesis Hq : forall c, 1 <= c <= 4 * nq -> aget adj c < 4 * (nq + 1).

Lemma side_reads k i : 1 <= k <= nq -> 0 <= i < 4 ->
  rd adj (qcell k i) = Ret (aget adj (qcell k i)) /\ rd rf k = Ret (aget rf k) /\
  rd tg (qcell k i) = Ret (aget tg (qcell k i)) /\ rd ed (qcell k i) = Ret (aget ed (qcell k i)) /\
  (0 <= Z.quot (aget adj (qcell k i)) 4 -> rd rf (Z.quot (aget adj (qcell k i)) 4) = Ret (aget rf (Z.quot (aget adj (qcell k i)) 4))).
Proof.
  intros Hk Hi. assert (C : 1 <= qcell k i <= 4 * nq) by (unfold qcell; lia).
  split; [apply rd_ok; lia|]. split; [apply rd_ok; lia|]. split; [apply rd_ok; lia|]. split; [apply rd_ok; lia|].
  intros H0. apply rd_ok. split; [exact H0|]. pose proof (Hq _ C) as U.
  assert (Z.quot (aget adj (qcell k i)) 4 < nq + 1); [|lia].
  destruct (Z_lt_le_dec (aget adj (qcell k i)) 0) as [N|P].
  - assert (Z.quot (aget adj (qcell k i)) 4 <= 0); [|lia].
    rewrite <- (Z.opp_involutive (aget adj (qcell k i))), Z.quot_opp_l by lia.
    pose proof (Z.quot_pos (- aget adj (qcell k i)) 4). lia.
  - apply Z.quot_lt_upper_bound; lia.
Qed.

Lemma skip_hole k : q_v (aget a k) 0 <= 0 -> forall i, filter keep (map (pair k) (zs i)) = [].
Proof.
  clear. intros H i. induction (zs i) as [|x l IH]; [reflexivity|]. cbn [map filter keep].
  destruct (Z.ltb_spec 0 (q_v (aget a k) 0)); [lia|]. cbn [andb]. exact IH.
Qed.
Lemma filter_hole k : q_v (aget a k) 0 <= 0 -> filter keep (before k 4) = filter keep (before k 0).
Proof. clear. intros H. unfold before. rewrite !filter_app, !(skip_hole k H). reflexivity. Qed.

Lemma count_quads_ok na :
  count_quads na = Ret (na + Z.of_nat (length (filter keep (before (nq + 1) 0)))).
Proof.
  unfold count_quads.
  match goal with |- for_range 1 nq ?f ?s = _ =>
    destruct (@for_range_inv Z (fun k c => c = na + Z.of_nat (length (filter keep (before k 0)))) f 1 nq s) as (c & E & ->) end.
  - lia.
  - cbn. lia.
  - intros k c Hk ->. rewrite rd_ok by lia. cbn [bind]. rewrite (before_k k) by lia.
    destruct (Z.ltb_spec 0 (q_v (aget a k) 0)) as [L|L].
    + match goal with |- context [for_range 0 3 ?f ?s] =>
        destruct (@for_range_inv Z (fun i c => c = na + Z.of_nat (length (filter keep (before k i)))) f 0 3 s) as (c & E & ->) end.
      * lia.
      * reflexivity.
      * intros i c Hi ->. destruct (side_reads k i Hk ltac:(lia)) as (R1 & R2 & R3 & _ & R5).
        rewrite R1. cbn [bind]. rewrite (before_i k i) by lia. rewrite filter_app, app_length, Nat2Z.inj_add.
        cbn [filter keep]. rewrite (proj2 (Z.ltb_lt _ _) L). cbn [andb].
        destruct (Z.ltb_spec (Z.quot (aget adj (qcell k i)) 4) 0) as [N|N]; cbn [negb andb length].
        -- eexists. split; [reflexivity|]. lia.
        -- rewrite R2, (R5 N), R3. cbn [bind]. rewrite counted_ok. cbn [bind]. eexists. split; [reflexivity|].
           destruct (stored opn (Z.quot (aget adj (qcell k i)) 4) (aget rf k) (aget rf (Z.quot (aget adj (qcell k i)) 4)) (aget tg (qcell k i)));
             cbn [length]; lia.
      * rewrite E. eexists. split; [reflexivity|]. reflexivity.
    + eexists. split; [reflexivity|]. rewrite (filter_hole k L). reflexivity.
  - exact E.
Qed.

Lemma filter_prefix (l l' : list (Z * Z)) : (length (filter keep l) <= length (filter keep (l ++ l')))%nat.
Proof. clear. rewrite filter_app, app_length. lia. Qed.

Lemma before_prefix k i : 1 <= k <= nq -> 0 <= i <= 4 -> exists l', before (nq + 1) 0 = before k i ++ l'.
Proof.
  clear. intros Hk Hi.
  assert (A : forall n : nat, 0 <= i + Z.of_nat n <= 4 -> exists l', before k (i + Z.of_nat n) = before k i ++ l').
  { induction n as [|n IH]; intros Hn; [exists []; rewrite app_nil_r; f_equal; lia|].
    destruct IH as (l' & E); [lia|]. exists (l' ++ [(k, i + Z.of_nat n)]).
    replace (i + Z.of_nat (S n)) with (i + Z.of_nat n + 1) by lia. rewrite before_i, E, app_assoc by lia. reflexivity. }
  destruct (A (Z.to_nat (4 - i))) as (l1 & E1); [lia|]. replace (i + Z.of_nat (Z.to_nat (4 - i))) with 4 in E1 by lia.
  assert (B : forall n : nat, exists l', before (k + 1 + Z.of_nat n) 0 = before k 4 ++ l').
  { induction n as [|n (l' & E)].
    - exists []. replace (k + 1 + Z.of_nat 0) with (k + 1) by lia. rewrite before_k, app_nil_r by lia. reflexivity.
    - replace (k + 1 + Z.of_nat (S n)) with (k + 1 + Z.of_nat n + 1) by lia. rewrite before_k by lia.
      exists (l' ++ map (pair (k + 1 + Z.of_nat n)) (zs 4)). rewrite app_assoc, <- E. unfold before.
      change (zs 0) with (@nil Z). cbn [map]. rewrite app_nil_r. reflexivity. }
  destruct (B (Z.to_nat (nq - k))) as (l2 & E2). replace (k + 1 + Z.of_nat (Z.to_nat (nq - k))) with (nq + 1) in E2 by lia.
  exists (l1 ++ l2). rewrite E2, E1, app_assoc. reflexivity.
Qed.

Lemma store_quads_ok room : Z.of_nat (length (filter keep (before (nq + 1) 0))) <= room ->
  store_quads room = Ret (map edge_of (filter keep (before (nq + 1) 0))).
Proof.
  intros Hroom. unfold store_quads.
  match goal with |- for_range 1 nq ?f ?s = _ =>
    destruct (@for_range_inv (list edge) (fun k c => c = map edge_of (filter keep (before k 0))) f 1 nq s) as (c & E & ->) end.
  - lia.
  - reflexivity.
  - intros k c Hk ->. rewrite rd_ok by lia. cbn [bind]. rewrite (before_k k) by lia.
    destruct (Z.ltb_spec 0 (q_v (aget a k) 0)) as [L|L].
    + match goal with |- context [for_range 0 3 ?f ?s] =>
        destruct (@for_range_inv (list edge) (fun i c => c = map edge_of (filter keep (before k i))) f 0 3 s) as (c & E & ->) end.
      * lia.
      * reflexivity.
      * intros i c Hi ->. destruct (side_reads k i Hk ltac:(lia)) as (R1 & R2 & R3 & R4 & R5).
        rewrite R1. cbn [bind].
        destruct (before_prefix k (i + 1) Hk ltac:(lia)) as (l' & El).
        pose proof (filter_prefix (before k (i + 1)) l') as Hle. rewrite <- El in Hle. clear El.
        rewrite (before_i k i) in Hle |- * by lia. rewrite filter_app, app_length in Hle. rewrite filter_app, map_app.
        cbn [filter keep] in Hle |- *. rewrite (proj2 (Z.ltb_lt _ _) L) in Hle |- *. cbn [andb] in Hle |- *.
        destruct (Z.ltb_spec (Z.quot (aget adj (qcell k i)) 4) 0) as [N|N]; cbn [negb andb length] in Hle |- *.
        -- eexists. split; [reflexivity|]. cbn [map]. rewrite app_nil_r. reflexivity.
        -- rewrite R2, (R5 N), R3. cbn [bind].
           destruct (stored opn (Z.quot (aget adj (qcell k i)) 4) (aget rf k) (aget rf (Z.quot (aget adj (qcell k i)) 4)) (aget tg (qcell k i))).
           ++ rewrite R4. cbn [bind]. cbn [length] in Hle. rewrite map_length.
              match goal with |- context [?x <=? room] => destruct (Z.leb_spec x room); [|lia] end.
              cbn [c_assert bind]. eexists. split; [reflexivity|]. reflexivity.
           ++ eexists. split; [reflexivity|]. cbn [map]. rewrite app_nil_r. reflexivity.
      * rewrite E. eexists. split; [reflexivity|]. reflexivity.
    + eexists. split; [reflexivity|]. rewrite (filter_hole k L). reflexivity.
  - exact E.
Qed.

Lemma pack_quads_ok na : pack_quads na =
  Ret (na + Z.of_nat (length (filter keep (before (nq + 1) 0))), map edge_of (filter keep (before (nq + 1) 0))).
Proof.
  unfold pack_quads. rewrite count_quads_ok. cbn [bind]. rewrite store_quads_ok by lia. reflexivity.
Qed.

Lemma before_nodup n0 : 0 <= n0 -> NoDup (before (n0 + 1) 0).
Proof.
  clear. intros H0.
  assert (A : forall n : nat, NoDup (before (1 + Z.of_nat n) 0)).
  { clear H0. induction n as [|n IH]; [constructor|].
    replace (1 + Z.of_nat (S n)) with (1 + Z.of_nat n + 1) by lia. rewrite before_k by lia.
    set (k := 1 + Z.of_nat n) in *.
    assert (B : forall m : nat, NoDup (before k (Z.of_nat m))).
    { induction m as [|m IHm]; [exact IH|]. replace (Z.of_nat (S m)) with (Z.of_nat m + 1) by lia.
      rewrite before_i by lia. apply NoDup_rev in IHm. rewrite <- (rev_involutive (_ ++ _)). apply NoDup_rev.
      rewrite rev_app_distr. cbn [rev app]. constructor; [|exact IHm].
      intros X. apply in_rev in X. apply in_before in X. lia. }
    exact (B 4%nat). }
  replace (n0 + 1) with (1 + Z.of_nat (Z.to_nat n0)) by lia. apply A.
Qed.

End QuadPack.
