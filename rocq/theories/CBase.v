(** Shared vocabulary of the models: outcomes, checked arrays, loops.

    The models translate C functions by hand.  An access outside an allocated
    array, a division by zero and a failing [assert] are all the outcome
    [Stuck]; a theorem that exhibits [Ret] therefore rules out these undefined
    behaviours both with and without NDEBUG. *)
From Coq Require Import ZArith List Lia Bool.
From Coq Require Import ZifyBool ZifyNat ZifyN.
Import ListNotations.
Open Scope Z_scope.

Set Implicit Arguments.

(** ** Outcomes *)

Inductive outcome (A : Type) : Type :=
| Ret (a : A)      (** the C code reaches this point with this state/value *)
| Stuck.           (** undefined behaviour, failing assert or model fuel exhausted *)
Arguments Ret {A} a.
Arguments Stuck {A}.

Definition bind {A B} (x : outcome A) (f : A -> outcome B) : outcome B :=
  match x with Ret a => f a | Stuck => Stuck end.

Notation "x <- e ;; f" := (bind e (fun x => f))
  (at level 61, e at next level, right associativity).
Notation "' p <- e ;; f" := (bind e (fun p => f))
  (at level 61, p pattern, e at next level, right associativity).

(** C [assert]. *)
Definition c_assert (b : bool) : outcome unit := if b then Ret tt else Stuck.

Lemma bind_ret_inv A B (x : outcome A) (f : A -> outcome B) b :
  bind x f = Ret b -> exists a, x = Ret a /\ f a = Ret b.
Proof. destruct x; simpl; intros H; [eauto | discriminate]. Qed.

(** ** Functional update of index maps *)

Definition upd {A} (f : Z -> A) (i : Z) (v : A) : Z -> A :=
  fun j => if j =? i then v else f j.

Lemma upd_same A (f : Z -> A) i v : upd f i v i = v.
Proof. unfold upd. rewrite Z.eqb_refl. reflexivity. Qed.

Lemma upd_other A (f : Z -> A) i v j : j <> i -> upd f i v j = f j.
Proof. unfold upd. intros H. destruct (Z.eqb_spec j i); congruence. Qed.

(** ** Checked arrays: length and contents *)

Record arr (A : Type) : Type := mkArr { alen : Z; aget : Z -> A }.
Arguments mkArr {A} alen aget.
Arguments alen {A} a.
Arguments aget {A} a.

Definition inb {A} (a : arr A) (i : Z) : bool := (0 <=? i) && (i <? alen a).

(** C read [a\[i\]]. *)
Definition rd {A} (a : arr A) (i : Z) : outcome A :=
  if inb a i then Ret (aget a i) else Stuck.

(** C write [a\[i\] = v]. *)
Definition wr {A} (a : arr A) (i : Z) (v : A) : outcome (arr A) :=
  if inb a i then Ret (mkArr (alen a) (upd (aget a) i v)) else Stuck.

Lemma rd_ok A (a : arr A) i : 0 <= i < alen a -> rd a i = Ret (aget a i).
Proof. unfold rd, inb. intros H. destruct (Z.leb_spec 0 i), (Z.ltb_spec i (alen a)); simpl; reflexivity || lia. Qed.

Lemma wr_ok A (a : arr A) i v :
  0 <= i < alen a -> wr a i v = Ret (mkArr (alen a) (upd (aget a) i v)).
Proof. unfold wr, inb. intros H. destruct (Z.leb_spec 0 i), (Z.ltb_spec i (alen a)); simpl; reflexivity || lia. Qed.

Lemma rd_inv A (a : arr A) i v : rd a i = Ret v -> 0 <= i < alen a /\ v = aget a i.
Proof.
  unfold rd, inb. destruct (Z.leb_spec 0 i), (Z.ltb_spec i (alen a)); simpl; intros E; try discriminate.
  inversion E. split; [lia | reflexivity].
Qed.

Lemma wr_inv A (a : arr A) i v a' :
  wr a i v = Ret a' -> 0 <= i < alen a /\ a' = mkArr (alen a) (upd (aget a) i v).
Proof.
  unfold wr, inb. destruct (Z.leb_spec 0 i), (Z.ltb_spec i (alen a)); simpl; intros E; try discriminate.
  inversion E. split; [lia | reflexivity].
Qed.

(** Array of length [n] filled with [d] ([calloc]). *)
Definition acalloc {A} (n : Z) (d : A) : arr A := mkArr n (fun _ => d).

(** Zero-filled growth ([MMG5_SAFE_RECALLOC], mmgcommon_private.h:383). *)
Definition arecalloc {A} (a : arr A) (n : Z) (d : A) : arr A :=
  mkArr n (fun i => if i <? alen a then aget a i else d).

(** Array literal used by examples: index 0 is [d], then the list. *)
Definition aof {A} (d : A) (l : list A) : arr A :=
  mkArr (Z.of_nat (length l) + 1) (fun i => if i <=? 0 then d else nth (Z.to_nat (i - 1)) l d).

(** ** Counting loops

    [for_up lo n f s] runs [f] on [lo], [lo+1], ..., [lo+n-1]. *)
Fixpoint for_up {S} (lo : Z) (n : nat) (f : Z -> S -> outcome S) (s : S) : outcome S :=
  match n with
  | O => Ret s
  | Datatypes.S n' => s' <- f lo s ;; for_up (lo + 1) n' f s'
  end.

(** [for (k=lo; k<=hi; k++)]. *)
Definition for_range {S} (lo hi : Z) (f : Z -> S -> outcome S) (s : S) : outcome S :=
  for_up lo (Z.to_nat (hi - lo + 1)) f s.

Lemma for_up_inv S (P : Z -> S -> Prop) (f : Z -> S -> outcome S) :
  forall n lo s,
  P lo s ->
  (forall i s, lo <= i < lo + Z.of_nat n -> P i s -> exists s', f i s = Ret s' /\ P (i + 1) s') ->
  exists s', for_up lo n f s = Ret s' /\ P (lo + Z.of_nat n) s'.
Proof.
  induction n as [|n IH]; intros lo s H0 Hstep; cbn [for_up].
  - exists s. split; [reflexivity|]. replace (lo + Z.of_nat 0) with lo by lia. exact H0.
  - destruct (Hstep lo s) as [s1 [E1 H1]]; [lia | exact H0 |].
    rewrite E1. cbn [bind].
    destruct (IH (lo + 1) s1 H1) as [s2 [E2 H2]].
    + intros i s' Hi. apply Hstep. lia.
    + exists s2. split; [exact E2|]. replace (lo + Z.of_nat (Datatypes.S n)) with (lo + 1 + Z.of_nat n) by lia. exact H2.
Qed.

Lemma for_range_inv S (P : Z -> S -> Prop) (f : Z -> S -> outcome S) lo hi s :
  lo <= hi + 1 ->
  P lo s ->
  (forall i s, lo <= i <= hi -> P i s -> exists s', f i s = Ret s' /\ P (i + 1) s') ->
  exists s', for_range lo hi f s = Ret s' /\ P (hi + 1) s'.
Proof.
  intros Hle H0 Hstep. unfold for_range.
  destruct (@for_up_inv S P f (Z.to_nat (hi - lo + 1)) lo s H0) as [s' [E H]].
  - intros i s' Hi. apply Hstep. lia.
  - exists s'. split; [exact E|]. replace (hi + 1) with (lo + Z.of_nat (Z.to_nat (hi - lo + 1))) by lia. exact H.
Qed.

(** ** Pigeonhole on integer intervals *)

Lemma NoDup_Z_bound (l : list Z) (n : Z) :
  NoDup l -> (forall x, In x l -> 0 <= x < n) -> Z.of_nat (length l) <= Z.max 0 n.
Proof.
  intros Hnd Hin.
  assert (Hincl : incl l (map Z.of_nat (seq 0 (Z.to_nat n)))).
  { intros x Hx. apply Hin in Hx. apply in_map_iff. exists (Z.to_nat x).
    split; [lia|]. apply in_seq. lia. }
  pose proof (NoDup_incl_length Hnd Hincl) as H.
  rewrite map_length, seq_length in H. lia.
Qed.

(** [for (l=hi; l>lo; l--)]: runs [f] on [hi], [hi-1], ..., [lo+1]. *)
Fixpoint for_dn {S} (hi : Z) (n : nat) (f : Z -> S -> outcome S) (s : S) : outcome S :=
  match n with
  | O => Ret s
  | Datatypes.S n' => s' <- f hi s ;; for_dn (hi - 1) n' f s'
  end.

Definition for_down {S} (hi lo : Z) (f : Z -> S -> outcome S) (s : S) : outcome S :=
  for_dn hi (Z.to_nat (hi - lo)) f s.

Lemma for_dn_inv S (P : Z -> S -> Prop) (f : Z -> S -> outcome S) :
  forall n hi s,
  P hi s ->
  (forall i s, hi - Z.of_nat n < i <= hi -> P i s -> exists s', f i s = Ret s' /\ P (i - 1) s') ->
  exists s', for_dn hi n f s = Ret s' /\ P (hi - Z.of_nat n) s'.
Proof.
  induction n as [|n IH]; intros hi s H0 Hstep; cbn [for_dn].
  - exists s. split; [reflexivity|]. replace (hi - Z.of_nat 0) with hi by lia. exact H0.
  - destruct (Hstep hi s) as [s1 [E1 H1]]; [lia | exact H0 |].
    rewrite E1. cbn [bind].
    destruct (IH (hi - 1) s1 H1) as [s2 [E2 H2]].
    + intros i s' Hi. apply Hstep. lia.
    + exists s2. split; [exact E2|]. replace (hi - Z.of_nat (Datatypes.S n)) with (hi - 1 - Z.of_nat n) by lia. exact H2.
Qed.

Lemma for_down_inv S (P : Z -> S -> Prop) (f : Z -> S -> outcome S) hi lo s :
  lo <= hi ->
  P hi s ->
  (forall i s, lo < i <= hi -> P i s -> exists s', f i s = Ret s' /\ P (i - 1) s') ->
  exists s', for_down hi lo f s = Ret s' /\ P lo s'.
Proof.
  intros Hle H0 Hstep. unfold for_down.
  destruct (@for_dn_inv S P f (Z.to_nat (hi - lo)) hi s H0) as [s' [E H]].
  - intros i s' Hi. apply Hstep. lia.
  - exists s'. split; [exact E|]. replace lo with (hi - Z.of_nat (Z.to_nat (hi - lo))) by lia. exact H.
Qed.
