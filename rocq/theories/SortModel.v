(** Model of the index sort of small arrays (src/common/tools.c:49-90) and of
    the byte order conversions (src/common/inout.c:39-108). *)
From Coq Require Import ZArith List Lia Bool.
From Verif Require Import CBase.
Import ListNotations.
Open Scope Z_scope.
Set Implicit Arguments.

Section Sort.
(** Array values are only compared, by [>]: [gtb x y] is the C test [x > y]. *)
Variable V : Type.
Variable gtb : V -> V -> bool.

(** Body of the inner loop (tools.c:56-60). *)
Definition nsort_inner (val : arr V) (i j : Z) (perm : arr Z) : outcome (arr Z) :=
  pi <- rd perm i ;; pj <- rd perm j ;;
  vi <- rd val pi ;; vj <- rd val pj ;;
  if gtb vi vj then (perm <- wr perm i pj ;; wr perm j pi) else Ret perm.

(** [MMG5_nsort] (tools.c:49-63).  [n] is an [int8_t] in C; the indices are
    [Z] here, which agrees as long as [n <= 127]. *)
Definition nsort (n : Z) (val : arr V) (perm : arr Z) : outcome (arr Z) :=
  perm <- for_range 0 (n - 1) (fun i perm => wr perm i i) perm ;;
  for_range 0 (n - 1) (fun i perm =>
    for_range (i + 1) (n - 1) (nsort_inner val i) perm) perm.

(** [MMG5_nperm] (tools.c:80-90). *)
Definition nperm (n shift stride : Z) (val oldval : arr V) (perm : arr Z)
  : outcome (arr V * arr V) :=
  oldval <- for_range 0 (n - 1) (fun i old =>
      x <- rd val (shift + i * stride) ;; wr old i x) oldval ;;
  val <- for_range 0 (n - 1) (fun i val =>
      k <- rd perm i ;; x <- rd oldval k ;; wr val (shift + i * stride) x) val ;;
  Ret (val, oldval).
End Sort.

(** Bytes of a machine word, lowest address first.  The C functions address
    the word through a [char *]; the byte order of the machine does not matter
    to them. *)

(** [MMG5_swapbin] (inout.c:43-56) and [MMG5_swapf] (inout.c:81-92): the four
    assignments. *)
Definition swap4 (p_in : arr Z) : outcome (arr Z) :=
  let p := acalloc 4 0 in
  x <- rd p_in 3 ;; p <- wr p 0 x ;;
  x <- rd p_in 2 ;; p <- wr p 1 x ;;
  x <- rd p_in 1 ;; p <- wr p 2 x ;;
  x <- rd p_in 0 ;; wr p 3 x.

(** [MMG5_swapd] (inout.c:98-110) and [MMG5_swapbin_int] (inout.c:61-74), the
    latter on an [MMG5_int] of [size] bytes (4 or 8 according to the build). *)
Definition swap8 (size : Z) (p_in : arr Z) : outcome (arr Z) :=
  for_range 0 7 (fun i p => x <- rd p_in (7 - i) ;; wr p i x) (acalloc size 0).

(** Words: an [n]-byte two's complement integer stored in the byte order of
    the machine ([le] = little endian). *)
Definition byte (k x : Z) : Z := (x / 256 ^ k) mod 256.
Definition bytes (le : bool) (n x : Z) : arr Z :=
  mkArr n (fun i => byte (if le then i else n - 1 - i) x).
Fixpoint value_le (m : nat) (f : Z -> Z) : Z :=
  match m with O => 0 | Datatypes.S m' => value_le m' f + f (Z.of_nat m') * 256 ^ Z.of_nat m' end.
Definition unsigned_of (le : bool) (n : Z) (a : arr Z) : Z :=
  value_le (Z.to_nat n) (fun i => aget a (if le then i else n - 1 - i)).
Definition int_of (le : bool) (n : Z) (a : arr Z) : Z :=
  let u := unsigned_of le n a in if u <? 256 ^ n / 2 then u else u - 256 ^ n.

(** The conversions as functions on C values. *)
Definition swapbin (le : bool) (x : Z) : outcome Z :=
  a <- swap4 (bytes le 4 x) ;; Ret (int_of le 4 a).
Definition swapbin_int (le : bool) (size : Z) (x : Z) : outcome Z :=
  a <- swap8 size (bytes le size x) ;; Ret (int_of le size a).
