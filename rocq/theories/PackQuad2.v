(** Packing of the quadrilaterals in [MMG2D_pack] (/repo/src/mmg2d/hash_2d.c:775-788).

    A quadrilateral is copied as a whole ([memcpy]).  With [dbg] the assertion
    of line 782 is checked, as in a build without NDEBUG.  Not modelled: the new
    numbers of the vertices (hash_2d.c:790-799). *)
From Coq Require Import ZArith List Bool Lia Permutation.
From Verif Require Import CBase SurfModel Quad2.
Import ListNotations.
Open Scope Z_scope.

(** [MG_EOK], mmgcommon_private.h. *)
Definition q_eok (q : quad) : bool := 0 <? q_v q 0.

(** The [do ... while] loop (hash_2d.c:777-787); result: quadrilaterals and their number. *)
Fixpoint packq (dbg : bool) (fuel : nat) (k nq : Z) (a : arr quad) : outcome (arr quad * Z) :=
  match fuel with
  | O => Stuck
  | S f =>
    q <- rd a k ;;
    '(a, nq) <-
      (if q_eok q then Ret (a, nq)
       else
         q1 <- rd a nq ;;
         if dbg && negb (q_eok q1) then Stuck
         else a' <- wr a k q1 ;; Ret (a', nq - 1)) ;;
    if k + 1 <? nq then packq dbg f (k + 1) nq a else Ret (a, nq)
  end.

(** hash_2d.c:775-788 on a mesh with a table of quadrilaterals. *)
Definition pack_quadra (dbg : bool) (nq : Z) (a : arr quad) : outcome (arr quad * Z) :=
  packq dbg (S (Z.to_nat nq)) 1 nq a.

(** ** Correctness *)

Definition lst (a : arr quad) (n : nat) : list quad := map (fun i => aget a (Z.of_nat i)) (seq 1 n).
Definition lives (a : arr quad) (n : nat) : list quad := filter q_eok (lst a n).

Lemma lst_S a n : lst a (S n) = lst a n ++ [aget a (Z.of_nat (S n))].
Proof. unfold lst. rewrite seq_S, map_app. reflexivity. Qed.
Lemma lst_split a k n : lst a (k + S n) = lst a k ++ aget a (Z.of_nat (S k)) :: map (fun i => aget a (Z.of_nat i)) (seq (S (S k)) n).
Proof. unfold lst. rewrite seq_app, map_app. reflexivity. Qed.

Lemma lst_upd_lo a k n v : (n <= k)%nat -> lst (mkArr (alen a) (upd (aget a) (Z.of_nat (S k)) v)) n = lst a n.
Proof.
  intros H. unfold lst. apply map_ext_in. intros i I. apply in_seq in I. cbn [aget]. rewrite upd_other by lia. reflexivity.
Qed.
Lemma lst_upd_hi (a : arr quad) (k n : nat) (v : quad) :
  map (fun i => aget (mkArr (alen a) (upd (aget a) (Z.of_nat (S k)) v)) (Z.of_nat i)) (seq (S (S k)) n) =
  map (fun i => aget a (Z.of_nat i)) (seq (S (S k)) n).
Proof.
  apply map_ext_in. intros i I. apply in_seq in I. cbn [aget]. rewrite upd_other by lia. reflexivity.
Qed.

(** The last one takes the place of a hole. *)
Lemma lives_move a k n : (S k <= S n)%nat -> q_eok (aget a (Z.of_nat (S k))) = false ->
  Permutation (lives a (S n)) (lives (mkArr (alen a) (upd (aget a) (Z.of_nat (S k)) (aget a (Z.of_nat (S n))))) n).
Proof.
  intros H E. destruct (Nat.eq_dec k n) as [->|NE].
  - unfold lives. rewrite lst_upd_lo by lia. rewrite lst_S, filter_app. cbn [filter]. rewrite E, app_nil_r. reflexivity.
  - unfold lives. rewrite (lst_S a n). destruct (Nat.le_exists_sub (S k) n ltac:(lia)) as (m & M & _).
    replace n with (k + S m)%nat by lia. rewrite !lst_split, lst_upd_lo, lst_upd_hi by lia. cbn [aget]. rewrite upd_same.
    rewrite !filter_app. cbn [filter]. rewrite E, <- app_assoc. apply Permutation_app_head.
    replace (k + S m)%nat with n by lia. destruct (q_eok (aget a (Z.of_nat (S n)))).
    + rewrite Permutation_app_comm. reflexivity.
    + rewrite app_nil_r. reflexivity.
Qed.

Lemma packq_ok dbg : forall f k nq a a' nq', packq dbg f k nq a = Ret (a', nq') -> 1 <= k <= nq ->
  (forall j, 1 <= j < k -> q_eok (aget a j) = true \/ dbg = false) ->
  alen a' = alen a /\ k - 1 <= nq' <= nq /\ Permutation (lives a (Z.to_nat nq)) (lives a' (Z.to_nat nq')) /\
  (dbg = true -> forall j, 1 <= j < nq' -> q_eok (aget a' j) = true).
Proof.
  induction f as [|f IH]; intros k nq a a' nq' E Hk L; [discriminate E|]. cbn [packq] in E.
  unfold rd at 1 in E. destruct (inb a k); [|discriminate E]. cbn [bind] in E.
  destruct (q_eok (aget a k)) eqn:Q.
  - cbn [bind] in E. assert (L' : forall j, 1 <= j < k + 1 -> q_eok (aget a j) = true \/ dbg = false).
    { intros j J. destruct (Z.eq_dec j k) as [->|]; [left; exact Q | apply L; lia]. }
    destruct (Z.ltb_spec (k + 1) nq).
    + destruct (IH _ _ _ _ _ E ltac:(lia) L') as (A & B & C). split; [exact A|]. split; [lia | exact C].
    + inversion E; subst a' nq'. split; [reflexivity|]. split; [lia|]. split; [reflexivity|].
      intros D j J. destruct (L' j ltac:(lia)) as [X|X]; [exact X | congruence].
  - unfold rd in E. destruct (inb a nq); [|discriminate E]. cbn [bind] in E.
    destruct (dbg && negb (q_eok (aget a nq))) eqn:D; [discriminate E|].
    unfold wr in E. destruct (inb a k); [|discriminate E]. cbn [bind] in E.
    set (a1 := mkArr (alen a) (upd (aget a) k (aget a nq))) in *.
    assert (L' : forall j, 1 <= j < k + 1 -> q_eok (aget a1 j) = true \/ dbg = false).
    { intros j J. unfold a1. cbn [aget]. destruct (Z.eq_dec j k) as [->|].
      - rewrite upd_same. destruct dbg; [left | right; reflexivity]. destruct (q_eok (aget a nq)); [reflexivity | discriminate D].
      - rewrite upd_other by lia. apply L. lia. }
    assert (PM : Permutation (lives a (Z.to_nat nq)) (lives a1 (Z.to_nat (nq - 1)))).
    { pose proof (lives_move a (Z.to_nat (k - 1)) (Z.to_nat (nq - 1)) ltac:(lia)) as P.
      rewrite !Nat2Z.inj_succ, !Z2Nat.id in P by lia. replace (Z.succ (k - 1)) with k in P by lia.
      replace (Z.succ (nq - 1)) with nq in P by lia. replace (S (Z.to_nat (nq - 1))) with (Z.to_nat nq) in P by lia. exact (P Q). }
    destruct (Z.ltb_spec (k + 1) (nq - 1)).
    + destruct (IH _ _ _ _ _ E ltac:(lia) L') as (A & B & C & G). split; [exact A|]. split; [lia|].
      split; [rewrite PM; exact C | exact G].
    + inversion E; subst a' nq'. split; [reflexivity|]. split; [lia|]. split; [exact PM|].
      intros D' j J. destruct (L' j ltac:(lia)) as [X|X]; [exact X | congruence].
Qed.

Lemma packq_full dbg : forall f k nq a, (Z.to_nat (nq - k) < f)%nat -> 1 <= k <= nq -> nq < alen a ->
  (forall j, k <= j <= nq -> q_eok (aget a j) = true) -> packq dbg f k nq a = Ret (a, nq).
Proof.
  induction f as [|f IH]; intros k nq a F Hk L H; [lia|]. cbn [packq]. rewrite rd_ok by lia. cbn [bind].
  rewrite (H k ltac:(lia)). cbn [bind]. destruct (Z.ltb_spec (k + 1) nq); [|reflexivity].
  apply IH; [lia | lia | exact L |]. intros j J. apply H. lia.
Qed.

(** Without assertions the loop always ends. *)
Lemma packq_ends : forall f k nq a, (Z.to_nat (nq - k) < f)%nat -> 1 <= k <= nq -> nq < alen a ->
  exists r, packq false f k nq a = Ret r.
Proof.
  induction f as [|f IH]; intros k nq a F Hk L; [lia|]. cbn [packq]. rewrite rd_ok by lia. cbn [bind].
  destruct (q_eok (aget a k)); cbn [bind].
  - destruct (Z.ltb_spec (k + 1) nq); [apply IH; lia | eexists; reflexivity].
  - rewrite rd_ok by lia. cbn [bind andb]. rewrite wr_ok by lia. cbn [bind].
    destruct (Z.ltb_spec (k + 1) (nq - 1)); [apply IH; cbn [alen]; lia | eexists; reflexivity].
Qed.
