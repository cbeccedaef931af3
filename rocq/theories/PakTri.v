(** Packing of the triangles before the adjacency table is made in Mmgs: [paktri]
    (/repo/src/mmgs/hash_s.c:45-68), [MMGS_delElt] (/repo/src/mmgs/zaldy_s.c:93-110)
    and [MMGS_newElt] (/repo/src/mmgs/zaldy_s.c:71-82).

    There is no adjacency table ([MMGS_hashTria] packs only then,
    hash_s.c:79-84), so that zaldy_s.c:103-104 does nothing. *)
From Coq Require Import ZArith List Bool Lia Permutation.
From Verif Require Import CBase.
Import ListNotations.
Open Scope Z_scope.

(** A triangle ([MMG5_Tria], libmmgtypes.h): [v[0]], [v[2]] and the other
    fields as one value. *)
Record tri : Type := mkT { x0 : Z; x2 : Z; xd : Z }.
(** [MG_EOK], mmgcommon_private.h. *)
Definition t_ok (t : tri) : bool := 0 <? x0 t.

(** Triangles, [nt], [nenil]. *)
Record ms : Type := mkS { tr : arr tri; nt : Z; fr : Z }.

(** zaldy_s.c:107. *)
Fixpoint trim (f : nat) (a : arr tri) (n : Z) : outcome Z :=
  match f with
  | O => Stuck
  | S f => t <- rd a n ;; if negb (t_ok t) && negb (n =? 0) then trim f a (n - 1) else Ret n
  end.

(** [MMGS_delElt]; [None] is the return of 0. *)
Definition del (s : ms) (iel : Z) : outcome (option ms) :=
  t <- rd (tr s) iel ;;
  if t_ok t then
    a <- wr (tr s) iel (mkT 0 (fr s) 0) ;;
    n <- (if iel =? nt s then trim (S (Z.to_nat (nt s))) a (nt s) else Ret (nt s)) ;;
    Ret (Some (mkS a n iel))
  else Ret None.

(** The loop of [paktri] (hash_s.c:49-59). *)
Fixpoint pak (f : nat) (k : Z) (s : ms) : outcome (option ms) :=
  match f with
  | O => Stuck
  | S f =>
    t <- rd (tr s) k ;;
    r <- (if t_ok t then Ret (Some s)
          else
            t1 <- rd (tr s) (nt s) ;;
            a <- wr (tr s) k t1 ;;
            del (mkS a (nt s) (fr s)) (nt s)) ;;
    match r with
    | None => Ret None
    | Some s => if k + 1 <? nt s then pak f (k + 1) s else Ret (Some s)
    end
  end.

(** [paktri] (hash_s.c:45-68). *)
Definition paktri (ntmax : Z) (s : ms) : outcome (option ms) :=
  r <- pak (S (Z.to_nat (nt s))) 1 s ;;
  match r with
  | None => Ret None
  | Some s =>
    a <- for_range (nt s + 1) (ntmax - 1) (fun k a => t <- rd a k ;; wr a k (mkT (x0 t) (k + 1) (xd t))) (tr s) ;;
    Ret (Some (mkS a (nt s) (nt s + 1)))
  end.

(** [MMGS_newElt]. *)
Definition new_elt (s : ms) : outcome (Z * ms) :=
  if fr s =? 0 then Ret (0, s)
  else
    t <- rd (tr s) (fr s) ;;
    a <- wr (tr s) (fr s) (mkT (x0 t) 0 (xd t)) ;;
    Ret (fr s, mkS a (if nt s <? fr s then fr s else nt s) (x2 t)).

(** [n] creations in a row: the numbers returned. *)
Fixpoint news (n : nat) (s : ms) : outcome (list Z * ms) :=
  match n with
  | O => Ret ([], s)
  | S n => '(c, s) <- new_elt s ;; '(l, s) <- news n s ;; Ret (c :: l, s)
  end.

(** ** Correctness *)

Definition tl (a : arr tri) (n : Z) : list tri := filter t_ok (map (fun i => aget a (Z.of_nat i)) (seq 1 (Z.to_nat n))).

Lemma tl_S a n : 0 <= n -> tl a (n + 1) = tl a n ++ (if t_ok (aget a (n + 1)) then [aget a (n + 1)] else []).
Proof.
  intros H. unfold tl. replace (Z.to_nat (n + 1)) with (S (Z.to_nat n)) by lia.
  rewrite seq_S, map_app, filter_app. cbn [map filter]. replace (Z.of_nat (1 + Z.to_nat n)) with (n + 1) by lia. reflexivity.
Qed.
Lemma tl_ext a b n : (forall j, 1 <= j <= n -> aget a j = aget b j) -> tl a n = tl b n.
Proof. intros H. unfold tl. f_equal. apply map_ext_in. intros i I. apply in_seq in I. apply H. lia. Qed.
Lemma tl_dead a n m : 0 <= n <= m -> (forall j, n < j <= m -> t_ok (aget a j) = false) -> tl a m = tl a n.
Proof.
  intros H D. replace m with (n + Z.of_nat (Z.to_nat (m - n))) in * by lia. induction (Z.to_nat (m - n)) as [|q IH].
  - f_equal. lia.
  - rewrite Nat2Z.inj_succ in *. replace (n + Z.succ (Z.of_nat q)) with (n + Z.of_nat q + 1) in * by lia.
    rewrite tl_S by lia. rewrite D by lia. rewrite app_nil_r. apply IH; [lia|]. intros j J. apply D. lia.
Qed.

(** A value put in a hole. *)
Lemma tl_put a k v : forall n, 1 <= k <= Z.of_nat n -> t_ok (aget a k) = false -> t_ok v = true ->
  Permutation (tl (mkArr (alen a) (upd (aget a) k v)) (Z.of_nat n)) (v :: tl a (Z.of_nat n)).
Proof.
  induction n as [|n IH]; intros H D V; [lia|]. rewrite Nat2Z.inj_succ. unfold Z.succ. rewrite !tl_S by lia. cbn [aget].
  destruct (Z.eq_dec k (Z.of_nat n + 1)) as [->|N].
  - rewrite upd_same, D, V, app_nil_r. rewrite (tl_ext _ a); [apply Permutation_sym, Permutation_cons_append|].
    intros j J. cbn [aget]. apply upd_other. lia.
  - rewrite upd_other by lia. rewrite IH by (auto; lia). reflexivity.
Qed.

Lemma trim_ok a : forall f n m, (Z.to_nat n < f)%nat -> 1 <= m <= n -> n < alen a -> t_ok (aget a m) = true ->
  exists n', trim f a n = Ret n' /\ m <= n' <= n /\ t_ok (aget a n') = true /\ forall j, n' < j <= n -> t_ok (aget a j) = false.
Proof.
  induction f as [|f IH]; intros n m F H L M; [lia|]. cbn [trim]. rewrite rd_ok by lia. cbn [bind].
  destruct (t_ok (aget a n)) eqn:E.
  - exists n. split; [reflexivity|]. split; [lia|]. split; [exact E|]. intros; lia.
  - destruct (Z.eqb_spec n 0); [lia|]. cbn [negb andb]. assert (n <> m) by congruence.
    destruct (IH (n - 1) m) as (n' & A & B & C & D); [lia | lia | lia | exact M|].
    exists n'. split; [exact A|]. split; [lia|]. split; [exact C|]. intros j J.
    destruct (Z.eq_dec j n) as [->|]; [exact E | apply D; lia].
Qed.

Lemma pak_ok : forall f k s, (Z.to_nat (nt s - k) < f)%nat -> 1 <= k <= nt s -> nt s < alen (tr s) ->
  t_ok (aget (tr s) (nt s)) = true -> (forall j, 1 <= j < k -> t_ok (aget (tr s) j) = true) ->
  exists s', pak f k s = Ret (Some s') /\ 1 <= nt s' <= nt s /\ alen (tr s') = alen (tr s) /\
    (forall j, 1 <= j <= nt s' -> t_ok (aget (tr s') j) = true) /\
    Permutation (tl (tr s) (nt s)) (tl (tr s') (nt s')) /\
    (forall j, nt s < j -> aget (tr s') j = aget (tr s) j).
Proof.
  induction f as [|f IH]; intros k [a n c] F Hk L E G; cbn [nt tr fr] in *; [lia|].
  cbn [pak tr nt fr]. rewrite rd_ok by lia. cbn [bind]. destruct (t_ok (aget a k)) eqn:K.
  - cbn [bind nt]. assert (G' : forall j, 1 <= j < k + 1 -> t_ok (aget a j) = true).
    { intros j J. destruct (Z.eq_dec j k) as [->|]; [exact K | apply G; lia]. }
    destruct (Z.ltb_spec (k + 1) n) as [A|A].
    + destruct (IH (k + 1) (mkS a n c)) as (s' & X); cbn [nt tr fr]; auto; [lia | lia|]. exists s'. exact X.
    + exists (mkS a n c). split; [reflexivity|]. cbn [nt tr]. split; [lia|]. split; [reflexivity|]. split.
      * intros j J. destruct (Z.eq_dec j n) as [->|]; [exact E | apply G'; lia].
      * split; reflexivity.
  - assert (k <> n) by congruence. rewrite rd_ok by lia. cbn [bind]. rewrite wr_ok by lia. cbn [bind].
    unfold del. cbn [nt tr fr]. rewrite rd_ok by (cbn [alen]; lia). cbn [bind aget]. rewrite upd_other by lia. rewrite E.
    rewrite wr_ok by (cbn [alen]; lia). cbn [bind aget alen]. rewrite Z.eqb_refl.
    set (a2 := mkArr (alen a) (upd (upd (aget a) k (aget a n)) n (mkT 0 c 0))).
    assert (A2k : aget a2 k = aget a n) by (unfold a2; cbn [aget]; rewrite upd_other by lia; apply upd_same).
    assert (A2n : t_ok (aget a2 n) = false) by (unfold a2; cbn [aget]; rewrite upd_same; reflexivity).
    assert (A2o : forall j, j <> k -> j <> n -> aget a2 j = aget a j) by (intros; unfold a2; cbn [aget]; rewrite !upd_other by lia; reflexivity).
    destruct (trim_ok a2 (S (Z.to_nat n)) n k) as (m & T & Tm & Tl & Td); [lia | lia | unfold a2; cbn [alen]; lia | rewrite A2k; exact E|].
    rewrite T. cbn [bind nt].
    assert (m <> n) by congruence.
    assert (PM : Permutation (tl a n) (tl a2 m)).
    { rewrite <- (tl_dead a2 m (n - 1)); [|lia|intros j J; apply Td; lia].
      replace n with (n - 1 + 1) at 1 by lia. rewrite tl_S by lia. replace (n - 1 + 1) with n by lia. rewrite E.
      rewrite (tl_ext a2 (mkArr (alen a) (upd (aget a) k (aget a n))) (n - 1)).
      - pose proof (tl_put a k (aget a n) (Z.to_nat (n - 1))) as P. rewrite Z2Nat.id in P by lia.
        rewrite P by (auto; lia). apply Permutation_sym, Permutation_cons_append.
      - intros j J. unfold a2. cbn [aget]. apply upd_other. lia. }
    assert (G' : forall j, 1 <= j < k + 1 -> t_ok (aget a2 j) = true).
    { intros j J. destruct (Z.eq_dec j k) as [->|]; [rewrite A2k; exact E | rewrite A2o by lia; apply G; lia]. }
    assert (O : forall j, n < j -> aget a2 j = aget a j) by (intros; apply A2o; lia).
    destruct (Z.ltb_spec (k + 1) m) as [A|A].
    + destruct (IH (k + 1) (mkS a2 m n)) as (s' & X1 & X2 & X3 & X4 & X5 & X6); cbn [nt tr fr] in *; auto; [lia | lia | unfold a2; cbn [alen]; lia|].
      exists s'. split; [exact X1|]. split; [lia|]. split; [exact X3|]. split; [exact X4|]. split; [rewrite PM; exact X5|].
      intros j J. rewrite X6 by lia. apply O. exact J.
    + exists (mkS a2 m n). split; [reflexivity|]. cbn [nt tr]. split; [lia|]. split; [reflexivity|]. split.
      * intros j J. destruct (Z.eq_dec j m) as [->|]; [exact Tl | apply G'; lia].
      * split; [exact PM | exact O].
Qed.

(** The free triangles from [c] on. *)
Definition chain (ntmax : Z) (s : ms) (c : Z) : Prop :=
  (ntmax < c /\ fr s = 0) \/
  (0 < c <= ntmax /\ fr s = c /\ ntmax < alen (tr s) /\ (forall j, c <= j < ntmax -> x2 (aget (tr s) j) = j + 1) /\ x2 (aget (tr s) ntmax) = 0).

Lemma new_chain ntmax s c : chain ntmax s c ->
  exists s', new_elt s = Ret (if c <=? ntmax then c else 0, s') /\ chain ntmax s' (c + 1).
Proof.
  unfold new_elt. intros [[A B]|(A & B & D & E & G)]; rewrite B.
  - cbn [Z.eqb]. exists s. destruct (Z.leb_spec c ntmax); [lia|]. split; [reflexivity|]. left. split; [lia | exact B].
  - destruct (Z.eqb_spec c 0); [lia|]. rewrite rd_ok by lia. cbn [bind]. rewrite wr_ok by lia. cbn [bind].
    destruct (Z.leb_spec c ntmax); [|lia]. eexists. split; [reflexivity|].
    destruct (Z.eq_dec c ntmax) as [->|N].
    + left. split; [lia | exact G].
    + right. cbn [fr tr alen aget]. split; [lia|]. split; [apply E; lia|]. split; [exact D|]. split.
      * intros j J. rewrite upd_other by lia. apply E. lia.
      * rewrite upd_other by lia. exact G.
Qed.

Lemma news_chain ntmax : forall n s c, chain ntmax s c ->
  exists s', news n s = Ret (map (fun i => if c + Z.of_nat i <=? ntmax then c + Z.of_nat i else 0) (seq 0 n), s').
Proof.
  induction n as [|n IH]; intros s c H; [exists s; reflexivity|]. cbn [news].
  destruct (new_chain _ _ _ H) as (s1 & E1 & H1). rewrite E1. cbn [bind]. destruct (IH _ _ H1) as (s2 & E2). rewrite E2. cbn [bind].
  exists s2. cbn [seq map]. rewrite Z.add_0_r. rewrite <- seq_shift, map_map. do 3 f_equal. apply map_ext. intros i.
  replace (c + Z.of_nat (S i)) with (c + 1 + Z.of_nat i) by lia. reflexivity.
Qed.

Lemma paktri_ok ntmax s : 1 <= nt s <= ntmax -> ntmax < alen (tr s) -> t_ok (aget (tr s) (nt s)) = true ->
  exists s', paktri ntmax s = Ret (Some s') /\ 1 <= nt s' <= nt s /\ alen (tr s') = alen (tr s) /\
    (forall j, 1 <= j <= nt s' -> t_ok (aget (tr s') j) = true) /\
    Permutation (tl (tr s) (nt s)) (tl (tr s') (nt s')) /\
    (nt s < ntmax -> x2 (aget (tr s) ntmax) = 0 -> chain ntmax s' (nt s' + 1)).
Proof.
  intros H L E. unfold paktri.
  destruct (pak_ok (S (Z.to_nat (nt s))) 1 s) as (s1 & A & B & C & D & P & O); auto; [lia | lia | lia | intros; lia|].
  rewrite A. cbn [bind].
  match goal with |- context [for_range (nt s1 + 1) (ntmax - 1) ?f ?a] =>
    destruct (@for_range_inv (arr tri) (fun k b => alen b = alen (tr s) /\
      (forall j, nt s1 < j < k -> x2 (aget b j) = j + 1) /\
      (forall j, j <= nt s1 \/ k <= j -> aget b j = aget (tr s1) j)) f (nt s1 + 1) (Z.max (nt s1) (ntmax - 1)) a) as (b & X & Y1 & Y2 & Y3) end.
  - lia.
  - split; [exact C|]. split; [intros; lia | reflexivity].
  - intros k b K (I1 & I2 & I3). rewrite rd_ok by lia. cbn [bind]. rewrite wr_ok by lia. eexists. split; [reflexivity|].
    cbn [alen aget]. split; [exact I1|]. split.
    + intros j J. destruct (Z.eq_dec j k) as [->|]; [rewrite upd_same; reflexivity | rewrite upd_other by lia; apply I2; lia].
    + intros j J. rewrite upd_other by lia. apply I3. lia.
  - assert (X' : for_range (nt s1 + 1) (ntmax - 1) (fun k a => t <- rd a k ;; wr a k (mkT (x0 t) (k + 1) (xd t))) (tr s1) = Ret b).
    { revert X. unfold for_range. replace (Z.to_nat (Z.max (nt s1) (ntmax - 1) - (nt s1 + 1) + 1)) with (Z.to_nat (ntmax - 1 - (nt s1 + 1) + 1)) by lia.
      exact (fun x => x). }
    rewrite X'. cbn [bind]. eexists. split; [reflexivity|]. cbn [nt tr fr].
    assert (S1 : forall j, 1 <= j <= nt s1 -> aget b j = aget (tr s1) j) by (intros; apply Y3; lia).
    split; [exact B|]. split; [exact Y1|]. split; [intros j J; rewrite S1 by exact J; apply D; exact J|].
    split; [rewrite P; rewrite (tl_ext b (tr s1)); [reflexivity | exact S1]|].
    intros N Z0. right. cbn [tr fr]. split; [lia|]. split; [reflexivity|]. split; [lia|]. split.
    + intros j J. apply Y2. lia.
    + rewrite Y3 by lia. rewrite O by lia. exact Z0.
Qed.
