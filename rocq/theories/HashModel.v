(** Model of the chained hash tables of Mmg.

    Sources: src/common/hash.c and src/mmg3d/hash_3d.c.

    [MMG5_Hash] (libmmgtypes.h:603-606, items [MMG5_hedge]) and [MMG5_HGeom]
    (libmmgtypes.h:582-585, items [MMG5_hgeom]) have the same layout up to the
    names of the payload fields.  One record [node] carries the union of their
    fields: [nk] is [k] of a hedge or [ref] of a hgeom, [ntag] is [tag] of a
    hgeom, [ns] is [s] of a hedge.  Each function below only touches the fields
    its C counterpart has. *)
From Coq Require Import ZArith List Bool.
From Verif Require Import CBase.
Import ListNotations.
Open Scope Z_scope.

Record node := mkNode { na : Z; nb : Z; ns : Z; nk : Z; ntag : Z; nnxt : Z }.

(** zeroed item ([calloc] / [memset 0]) *)
Definition node0 : node := mkNode 0 0 0 0 0 0.

Definition set_nxt (n : node) (x : Z) : node := mkNode (na n) (nb n) (ns n) (nk n) (ntag n) x.
Definition set_k (n : node) (x : Z) : node := mkNode (na n) (nb n) (ns n) x (ntag n) (nnxt n).
Definition set_tag (n : node) (x : Z) : node := mkNode (na n) (nb n) (ns n) (nk n) x (nnxt n).

Record htab := mkH { hsiz : Z; hmax : Z; hnxt : Z; hitem : arr node }.

Definition set_item (h : htab) (it : arr node) : htab := mkH (hsiz h) (hmax h) (hnxt h) it.

(** [MMG5_KA] and [MMG5_KB]: mmgcommon_private.h (7 and 11).  The C code
    computes in int64; the model uses unbounded integers. *)
Definition hkey (siz a b : Z) : Z := Z.rem (7 * a + 11 * b) siz.

Definition ckey (siz a b : Z) : outcome Z :=
  if siz =? 0 then Stuck else Ret (hkey siz a b).

(** [MMG5_hashNew], hash.c:532-548 and [MMG5_hNew], hash_3d.c:1083-1102.
    Simplification: the allocation is assumed to succeed (a failing one returns
    0 before the table exists). *)
Definition init_links (lo hi : Z) (it : arr node) : outcome (arr node) :=
  for_range lo (hi - 1) (fun j a => n <- rd a j ;; wr a j (set_nxt n (j + 1))) it.

Definition hashNew (siz0 max0 : Z) : outcome htab :=
  let siz := siz0 + 1 in
  let max := max0 + 2 in
  it <- init_links siz max (acalloc (max + 1) node0) ;;
  Ret (mkH siz max siz it).

(** [MMG5_TAB_RECALLOC] applied to the item array (mmgcommon_private.h:406-429).
    [g] is the number of entries gained; a value below 1 stands for a refused
    growth (memory limit or failing realloc).  Simplification: the macro's
    choice of the gap is left open, every positive gain is allowed. *)
Definition grow_items (h : htab) (g : Z) : option htab :=
  if g <? 1 then None
  else Some (mkH (hsiz h) (hmax h + g) (hnxt h) (arecalloc (hitem h) (hmax h + g + 1) node0)).

(** After a refused growth the C code returns 0 and the table must not be used
    any more (the array may have been freed, mmgcommon_private.h:389-393): the
    model gives back an empty array, so any later access is [Stuck]. *)
Definition dead (h : htab) : htab := mkH (hsiz h) (hmax h) (hnxt h) (mkArr 0 (aget (hitem h))).

Definition eq_edge (ia ib : Z) (n : node) : bool := (na n =? ia) && (nb n =? ib).
Definition eq_face (mi ma su : Z) (n : node) : bool :=
  (na n =? mi) && (nb n =? ma) && (ns n =? su).

Definition fuel_of (h : htab) : nat := S (Z.to_nat (alen (hitem h))).

(** [while ( ph->nxt && ph->nxt < hash->max ) { ph = &item[ph->nxt]; if match ... }]
    Result: [(true, slot)] when a match is met, [(false, last slot)] otherwise. *)
Fixpoint walk_b (fuel : nat) (it : arr node) (max : Z) (mt : node -> bool) (p : Z)
  : outcome (bool * Z) :=
  match fuel with
  | O => Stuck
  | S f =>
    ph <- rd it p ;;
    if (nnxt ph =? 0) || negb (nnxt ph <? max) then Ret (false, p)
    else
      q <- rd it (nnxt ph) ;;
      if mt q then Ret (true, nnxt ph) else walk_b f it max mt (nnxt ph)
  end.

(** [while ( ph->nxt ) { ph = &item[ph->nxt]; if match ... }] *)
Fixpoint walk_u (fuel : nat) (it : arr node) (mt : node -> bool) (p : Z)
  : outcome (bool * Z) :=
  match fuel with
  | O => Stuck
  | S f =>
    ph <- rd it p ;;
    if nnxt ph =? 0 then Ret (false, p)
    else
      q <- rd it (nnxt ph) ;;
      if mt q then Ret (true, nnxt ph) else walk_u f it mt (nnxt ph)
  end.

(** ** Edge table *)

(** [MMG5_hashEdge], hash.c:346-388.  Returns 1 if already listed, 2 if added,
    0 if the growth is refused. *)
Definition hashEdge (g : Z) (h : htab) (a b k : Z) : outcome (Z * htab) :=
  let ia := Z.min a b in
  let ib := Z.max a b in
  key <- ckey (hsiz h) ia ib ;;
  ph <- rd (hitem h) key ;;
  if eq_edge ia ib ph then Ret (1, h)
  else if negb (na ph =? 0) then
    '(found, p) <- walk_b (fuel_of h) (hitem h) (hmax h) (eq_edge ia ib) key ;;
    if found : bool then Ret (1, h)
    else
      np <- rd (hitem h) p ;;
      it1 <- wr (hitem h) p (set_nxt np (hnxt h)) ;;
      let h1 := set_item h it1 in
      _ <- rd it1 (hnxt h) ;;
      let insert (h2 : htab) :=
        ph2 <- rd (hitem h2) (hnxt h2) ;;
        it3 <- wr (hitem h2) (hnxt h2) (mkNode ia ib (ns ph2) k (ntag ph2) 0) ;;
        Ret (2, mkH (hsiz h2) (hmax h2) (nnxt ph2) it3) in
      if negb (hnxt h <? hmax h - 1) then
        match grow_items h1 g with
        | None => Ret (0, dead h1)
        | Some h2 =>
          ph2 <- rd (hitem h2) (hnxt h2) ;;
          it2 <- init_links (nnxt ph2) (hmax h2) (hitem h2) ;;
          insert (set_item h2 it2)
        end
      else insert h1
  else
    it1 <- wr (hitem h) key (mkNode ia ib (ns ph) k (ntag ph) 0) ;;
    Ret (2, set_item h it1).

(** [MMG5_hashUpdate], hash.c:404-427. *)
Fixpoint update_loop (fuel : nat) (it : arr node) (ia ib : Z) (p : Z) : outcome (option Z) :=
  match fuel with
  | O => Stuck
  | S f =>
    ph <- rd it p ;;
    if na ph =? 0 then Ret None
    else if eq_edge ia ib ph then Ret (Some p)
    else if nnxt ph =? 0 then Ret None
    else update_loop f it ia ib (nnxt ph)
  end.

Definition hashUpdate (h : htab) (a b k : Z) : outcome (Z * htab) :=
  let ia := Z.min a b in
  let ib := Z.max a b in
  key <- ckey (hsiz h) ia ib ;;
  r <- update_loop (fuel_of h) (hitem h) ia ib key ;;
  match r with
  | None => Ret (0, h)
  | Some p =>
    ph <- rd (hitem h) p ;;
    it1 <- wr (hitem h) p (set_k ph k) ;;
    Ret (1, set_item h it1)
  end.

(** Common tail of [MMG5_hashEdgeTag], [MMG5_hashFace] and [MMG5_hEdge]
    (hash.c:466-479, hash.c:308-320, hash_3d.c:1060-1072): link the free slot
    [hash->nxt] after slot [p], fill it, then grow when the free list is
    exhausted.  [fill] computes the new item from the old one. *)
Definition append_grow (g : Z) (h : htab) (p : Z) (fill : node -> node) : outcome (bool * htab) :=
  np <- rd (hitem h) p ;;
  it1 <- wr (hitem h) p (set_nxt np (hnxt h)) ;;
  ph <- rd it1 (hnxt h) ;;
  it2 <- wr it1 (hnxt h) (set_nxt (fill ph) 0) ;;
  let h2 := mkH (hsiz h) (hmax h) (nnxt ph) it2 in
  if negb (hnxt h2 <? hmax h2) then
    match grow_items h2 g with
    | None => Ret (false, dead h2)
    | Some h3 =>
      it3 <- init_links (hnxt h3) (hmax h3) (hitem h3) ;;
      Ret (true, set_item h3 it3)
    end
  else Ret (true, h2).

(** [MMG5_hashEdgeTag], hash.c:441-488.  Bitwise or of tags is [Z.lor].
    Returns the merged tag, or 0 when the growth is refused. *)
Definition hashEdgeTag (g : Z) (h : htab) (a b tag : Z) : outcome (Z * htab) :=
  let ia := Z.min a b in
  let ib := Z.max a b in
  key <- ckey (hsiz h) ia ib ;;
  ph <- rd (hitem h) key ;;
  let merge (p : Z) :=
    n <- rd (hitem h) p ;;
    it1 <- wr (hitem h) p (set_k n (Z.lor (nk n) tag)) ;;
    Ret (Z.lor (nk n) tag, set_item h it1) in
  if negb (na ph =? 0) then
    if eq_edge ia ib ph then merge key
    else
      '(found, p) <- walk_b (fuel_of h) (hitem h) (hmax h) (eq_edge ia ib) key ;;
      if found : bool then merge p
      else
        '(ok, h1) <- append_grow g h p (fun n => mkNode ia ib (ns n) tag (ntag n) (nnxt n)) ;;
        Ret (if ok : bool then tag else 0, h1)
  else
    it1 <- wr (hitem h) key (mkNode ia ib (ns ph) tag (ntag ph) 0) ;;
    Ret (tag, set_item h it1).

(** [MMG5_hashGet], hash.c:501-520 (the table is allocated). *)
Definition hashGet (h : htab) (a b : Z) : outcome Z :=
  let ia := Z.min a b in
  let ib := Z.max a b in
  key <- ckey (hsiz h) ia ib ;;
  ph <- rd (hitem h) key ;;
  if na ph =? 0 then Ret 0
  else if eq_edge ia ib ph then Ret (nk ph)
  else
    '(found, p) <- walk_u (fuel_of h) (hitem h) (eq_edge ia ib) key ;;
    if found : bool then n <- rd (hitem h) p ;; Ret (nk n) else Ret 0.

(** Walk that also remembers the predecessor, as the removal loops do:
    [while ( ph->nxt ) { php = ph; ph = &item[ph->nxt]; if match ... }].
    Result: [Some (pred, slot)] on a match. *)
Fixpoint walk_p (fuel : nat) (it : arr node) (mt : node -> bool) (p : Z)
  : outcome (option (Z * Z)) :=
  match fuel with
  | O => Stuck
  | S f =>
    ph <- rd it p ;;
    if nnxt ph =? 0 then Ret None
    else
      q <- rd it (nnxt ph) ;;
      if mt q then Ret (Some (p, nnxt ph)) else walk_p f it mt (nnxt ph)
  end.

(** Common removal code of [MMG5_hashPop] (hash_3d.c:850-899) and [MMG5_hPop]
    (hash_3d.c:947-1004).  Returns the removed item, if any. *)
Definition pop_item (h : htab) (a b : Z) : outcome (option node * htab) :=
  let ia := Z.min a b in
  let ib := Z.max a b in
  key <- ckey (hsiz h) ia ib ;;
  ph <- rd (hitem h) key ;;
  if na ph =? 0 then Ret (None, h)
  else if eq_edge ia ib ph then
    if nnxt ph =? 0 then
      it1 <- wr (hitem h) key node0 ;;
      Ret (Some ph, set_item h it1)
    else
      let iph := nnxt ph in
      q <- rd (hitem h) iph ;;
      it1 <- wr (hitem h) key q ;;
      it2 <- wr it1 iph (set_nxt node0 (hnxt h)) ;;
      Ret (Some ph, mkH (hsiz h) (hmax h) iph it2)
  else
    r <- walk_p (fuel_of h) (hitem h) (eq_edge ia ib) key ;;
    match r with
    | None => Ret (None, h)
    | Some (pp, p) =>
      q <- rd (hitem h) p ;;
      if nnxt q =? 0 then
        it1 <- wr (hitem h) p (set_nxt node0 (hnxt h)) ;;
        np <- rd it1 pp ;;
        it2 <- wr it1 pp (set_nxt np 0) ;;
        Ret (Some q, mkH (hsiz h) (hmax h) (nnxt np) it2)
      else
        np <- rd (hitem h) pp ;;
        it1 <- wr (hitem h) pp (set_nxt np (nnxt q)) ;;
        it2 <- wr it1 p (set_nxt node0 (hnxt h)) ;;
        Ret (Some q, mkH (hsiz h) (hmax h) (nnxt np) it2)
    end.

(** [MMG5_hashPop], hash_3d.c:850-899. *)
Definition hashPop (h : htab) (a b : Z) : outcome (Z * htab) :=
  '(r, h1) <- pop_item h a b ;;
  Ret (match r with Some _ => 1 | None => 0 end, h1).

(** ** Face table *)

Definition min3 (a b c : Z) : Z := Z.min a (Z.min b c).
Definition max3 (a b c : Z) : Z := Z.max a (Z.max b c).

(** [MMG5_hashFace], hash.c:286-332.  Returns the stored index if the face is
    known, -1 if it is new, 0 if the growth is refused. *)
Definition hashFace (g : Z) (h : htab) (ia ib ic k : Z) : outcome (Z * htab) :=
  let mins := min3 ia ib ic in
  let maxs := max3 ia ib ic in
  let sum := ia + ib + ic in
  key <- ckey (hsiz h) mins maxs ;;
  ph <- rd (hitem h) key ;;
  if negb (na ph =? 0) then
    if eq_face mins maxs sum ph then Ret (nk ph, h)
    else
      '(found, p) <- walk_b (fuel_of h) (hitem h) (hmax h) (eq_face mins maxs sum) key ;;
      if found : bool then n <- rd (hitem h) p ;; Ret (nk n, h)
      else
        '(ok, h1) <- append_grow g h p (fun n => mkNode mins maxs sum k (ntag n) (nnxt n)) ;;
        Ret (if ok : bool then -1 else 0, h1)
  else
    it1 <- wr (hitem h) key (mkNode mins maxs sum k (ntag ph) 0) ;;
    Ret (-1, set_item h it1).

(** [MMG5_hashGetFace], hash_3d.c:84-111. *)
Definition hashGetFace (h : htab) (ia ib ic : Z) : outcome Z :=
  let mins := min3 ia ib ic in
  let maxs := max3 ia ib ic in
  let sum := ia + ib + ic in
  key <- ckey (hsiz h) mins maxs ;;
  ph <- rd (hitem h) key ;;
  if negb (na ph =? 0) then
    if eq_face mins maxs sum ph then Ret (nk ph)
    else
      '(found, p) <- walk_u (fuel_of h) (hitem h) (eq_face mins maxs sum) key ;;
      if found : bool then n <- rd (hitem h) p ;; Ret (nk n) else Ret 0
  else Ret 0.

(** ** Geometric edge table *)

(** [MMG5_hEdge], hash_3d.c:1040-1080. *)
Definition hEdge (g : Z) (h : htab) (a b ref tag : Z) : outcome (Z * htab) :=
  _ <- c_assert (negb (hsiz h =? 0)) ;;
  let ia := Z.min a b in
  let ib := Z.max a b in
  key <- ckey (hsiz h) ia ib ;;
  ph <- rd (hitem h) key ;;
  if eq_edge ia ib ph then Ret (1, h)
  else if negb (na ph =? 0) then
    '(found, p) <- walk_u (fuel_of h) (hitem h) (eq_edge ia ib) key ;;
    if found : bool then Ret (1, h)
    else
      '(ok, h1) <- append_grow g h p (fun n => mkNode ia ib (ns n) ref tag (nnxt n)) ;;
      Ret (if ok : bool then 1 else 0, h1)
  else
    it1 <- wr (hitem h) key (mkNode ia ib (ns ph) ref tag 0) ;;
    Ret (1, set_item h it1).

(** [MMG5_hTag], hash_3d.c:914-944. *)
Definition tag_node (n : node) (ref tag : Z) : node :=
  let n1 := set_tag n (Z.lor (ntag n) tag) in
  if ref =? 0 then n1 else set_k n1 ref.

Definition hTag (h : htab) (a b ref tag : Z) : outcome (Z * htab) :=
  let ia := Z.min a b in
  let ib := Z.max a b in
  key <- ckey (hsiz h) ia ib ;;
  ph <- rd (hitem h) key ;;
  let put (p : Z) :=
    n <- rd (hitem h) p ;;
    it1 <- wr (hitem h) p (tag_node n ref tag) ;;
    Ret (1, set_item h it1) in
  if na ph =? 0 then Ret (0, h)
  else if eq_edge ia ib ph then put key
  else
    '(found, p) <- walk_u (fuel_of h) (hitem h) (eq_edge ia ib) key ;;
    if found : bool then put p else Ret (0, h).

(** [MMG5_hGet], hash_3d.c:1007-1037.  Result: (return value, ref, tag). *)
Definition hGet (h : htab) (a b : Z) : outcome (Z * Z * Z) :=
  _ <- c_assert (negb (hsiz h =? 0)) ;;
  let ia := Z.min a b in
  let ib := Z.max a b in
  key <- ckey (hsiz h) ia ib ;;
  ph <- rd (hitem h) key ;;
  if na ph =? 0 then Ret (0, 0, 0)
  else if eq_edge ia ib ph then Ret (1, nk ph, ntag ph)
  else
    '(found, p) <- walk_u (fuel_of h) (hitem h) (eq_edge ia ib) key ;;
    if found : bool then n <- rd (hitem h) p ;; Ret (1, nk n, ntag n) else Ret (0, 0, 0).

(** [MMG5_hPop], hash_3d.c:947-1004.  Result: (return value, ref, tag). *)
Definition hPop (h : htab) (a b : Z) : outcome ((Z * Z * Z) * htab) :=
  _ <- c_assert (negb (hsiz h =? 0)) ;;
  '(r, h1) <- pop_item h a b ;;
  Ret (match r with Some n => (1, nk n, ntag n) | None => (0, 0, 0) end, h1).
