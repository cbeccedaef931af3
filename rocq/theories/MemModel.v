(** The counted allocations of mmgcommon_private.h. *)
From Coq Require Import ZArith List Lia Bool.
From Verif Require Import CBase.
Import ListNotations.
Open Scope Z_scope.

(** [size_t] is unsigned on 64 bits; arithmetic wraps. *)
Definition W : Z := 2 ^ 64.
Definition wrap (x : Z) : Z := x mod W.

(** The heap as seen by the library: the counters [memCur] and [memMax]
    (libmmgtypes.h:655-656), the live blocks with the size written in their header
    (address, bytes), the pointer variables (0 is NULL) and the next fresh address.
    Every block is a counted one; contents are not kept. *)
Record hst := mkH { hcur : Z; hmax : Z; hblk : list (Z * Z); hptr : Z -> Z; hnext : Z }.

Definition hinit (mx : Z) : hst := mkH 0 mx [] (fun _ => 0) 1.

Definition set_cur (s : hst) (c : Z) : hst := mkH c (hmax s) (hblk s) (hptr s) (hnext s).
Definition set_ptr (s : hst) (p a : Z) : hst := mkH (hcur s) (hmax s) (hblk s) (upd (hptr s) p a) (hnext s).

(** Size in the header of the block at address [a] (mmgcommon_private.h:263,285);
    reading the header of a freed block is undefined. *)
Fixpoint block (l : list (Z * Z)) (a : Z) : outcome Z :=
  match l with
  | [] => Stuck
  | (b, n) :: l => if b =? a then Ret n else block l a
  end.

Definition drop (l : list (Z * Z)) (a : Z) : list (Z * Z) := filter (fun b => negb (fst b =? a)) l.

(** [MMG5_ADD_MEM] and [MMG5_CHK_MEM], mmgcommon_private.h:215-225,303-307: the
    counter is raised, tested, and lowered again on refusal.  The flag says whether
    the macro goes on. *)
Definition add_mem (s : hst) (size : Z) : bool * hst :=
  let c := wrap (hcur s + size) in
  if hmax s <? c then (false, set_cur s (wrap (c - size))) else (true, set_cur s c).

(** A request to the system: [sys] says whether it has the memory.  Nothing above
    the largest [ptrdiff_t] is ever granted.  A size that wraps when the header is
    added yields a block smaller than its header: undefined. *)
Definition granted (sys : bool) (size : Z) : outcome bool :=
  if W <=? size + 8 then Stuck else Ret (sys && (size + 8 <? 2 ^ 63)).

(** [mycalloc], [mymalloc], mmgcommon_private.h:228-251, with
    [MMG5_SAFE_CALLOC], [MMG5_SAFE_MALLOC], :317-334: status *)
Definition safe_calloc (sys : bool) (s : hst) (p size : Z) : outcome (bool * hst) :=
  g <- granted sys size ;;
  if g then
    Ret (true, mkH (hcur s) (hmax s) ((hnext s, size) :: hblk s) (upd (hptr s) p (hnext s)) (hnext s + 1))
  else Ret (false, set_ptr s p 0).

(** [myrealloc], mmgcommon_private.h:254-276, with [MMG5_SAFE_RECALLOC] and
    [MMG5_SAFE_REALLOC], :337-350,383-403.  On refusal the former block is released
    with [myfree], the counter is not changed. *)
Definition safe_realloc (sys : bool) (s : hst) (p old new : Z) : outcome (bool * hst) :=
  if hptr s p =? 0 then
    _ <- c_assert (old =? 0) ;; safe_calloc sys s p new
  else
    n <- block (hblk s) (hptr s p) ;;
    _ <- c_assert (old =? n) ;;
    g <- granted sys new ;;
    if g then
      Ret (true, mkH (hcur s) (hmax s) ((hnext s, new) :: drop (hblk s) (hptr s p))
                     (upd (hptr s) p (hnext s)) (hnext s + 1))
    else
      Ret (false, mkH (hcur s) (hmax s) (drop (hblk s) (hptr s p)) (upd (hptr s) p 0) (hnext s)).

(** The idiom [MMG5_ADD_MEM(c*sizeof) ; MMG5_SAFE_CALLOC(ptr,c,type)] (for instance
    API_functions_3d.c:2232-2236). *)
Definition m_alloc (sys : bool) (p c sz : Z) (s : hst) : outcome (Z * hst) :=
  let '(ok, s) := add_mem s (wrap (c * sz)) in
  if negb ok then Ret (0, s)
  else ' (ok, s) <- safe_calloc sys s p (wrap (c * sz)) ;; Ret ((if ok then 1 else 0), s).

(** The idiom [MMG5_ADD_MEM((new-prev)*sizeof) ; MMG5_SAFE_RE(C)ALLOC(ptr,prev,new)]
    (libtools.c:443-447, inout.c:1179-1184, hash_3d.c:1895-1896,1938-1939); a shrink
    adds the wrapped negative difference. *)
Definition m_resize (sys : bool) (p prev new sz : Z) (s : hst) : outcome (Z * hst) :=
  let '(ok, s) := add_mem s (wrap ((new - prev) * sz)) in
  if negb ok then Ret (0, s)
  else ' (ok, s) <- safe_realloc sys s p (wrap (prev * sz)) (wrap (new * sz)) ;; Ret ((if ok then 1 else 0), s).

(** [MMG5_TAB_RECALLOC], mmgcommon_private.h:407-429; [want] is
    [floor(wantedGap * initSize)].  The value is 0 on failure, else the new
    [initSize]. *)
Definition m_grow (sys : bool) (p init want sz : Z) (s : hst) : outcome (Z * hst) :=
  _ <- c_assert (hcur s <? hmax s) ;;
  let gap := if want =? 0 then 1 else want in
  let tight := hmax s <? wrap (hcur s + wrap (gap * sz)) in
  let gap := if tight then (hmax s - hcur s) / sz else gap in
  if tight && (gap <? 1) then Ret (0, s)
  else
    let '(ok, s) := add_mem s (wrap (gap * sz)) in
    if negb ok then Ret (0, s)
    else
      ' (ok, s) <- safe_realloc sys s p (wrap ((init + 1) * sz)) (wrap ((init + gap + 1) * sz)) ;;
      Ret ((if ok then init + gap else 0), s).

(** [MMG5_DEL_MEM] and [myfree], mmgcommon_private.h:279-299 *)
Definition m_del (p : Z) (s : hst) : outcome (Z * hst) :=
  if hptr s p =? 0 then Ret (1, s)
  else
    n <- block (hblk s) (hptr s p) ;;
    Ret (1, mkH (wrap (hcur s - n)) (hmax s) (drop (hblk s) (hptr s p)) (upd (hptr s) p 0) (hnext s)).
