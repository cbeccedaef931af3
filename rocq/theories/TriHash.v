(** The adjacencies of the triangles of a surface: [MMG5_mmgHashTria]
    (/repo/src/common/hash.c:58-264), called by [MMG3D_hashTria]
    (/repo/src/mmg3d/hash_3d.c:838-846, [chkISO] is [info.iso]) and by
    [MMGS_hashTria] (/repo/src/mmgs/hash_s.c:77-97, [chkISO] is 0).

    The triangles and their adjacents are those of [SurfModel]; the hash table
    is that of [HashModel].

    Simplifications: the function has its own copy of the code of
    [MMG5_hashEdge] (search of the chain, insertion, growth of the table); the
    model calls [hashGet] and, when the edge is not found, [hashEdge].  The
    counter [s] of the table, the tags of the vertices (third loop and lines
    216-224) and the counters [dup] and [nmf], that are only printed, are left
    out.  The first allocation of the table succeeds. *)
From Coq Require Import ZArith List Bool Lia.
From Verif Require Import CBase HashModel SurfModel.
Import ListNotations.
Open Scope Z_scope.

(** [(tag & MG_PARBDY) && !(tag & MG_PARBDYBDY)] (hash.c:99 and 206). *)
Definition par_only (tag : Z) : bool := tst tag T_PARBDY && negb (tst tag T_PARBDYBDY).

(** [pt->v\[0\] = 0]. *)
Definition kill (t : stri) : stri :=
  mkS (upd (s_v t) 0 0) (s_tag t) (s_edg t) (s_adj t) (s_ref t) (s_flag t) (s_base t) (s_cc t).

(** [pt->flag = 0; pt->base = mesh->base] (hash.c:87-90). *)
Definition reset (b : Z) (t : stri) : stri :=
  mkS (s_v t) (s_tag t) (s_edg t) (s_adj t) (s_ref t) 0 b (s_cc t).

Section HashTria.
Variable nt : Z.
Variable iso : bool.      (** [chkISO] *)
Variable isoref : Z.      (** [info.isoref] *)
Variable base : Z.        (** [mesh->base], after the increment *)
Variable gr : Z -> Z.     (** growth of the table granted for each edge *)

Notation hst := (arr stri * htab)%type.

(** An edge already in the table, first met as the edge [j] of [jel]
    (hash.c:123-155). *)
Definition meet (k i e : Z) (a : arr stri) : outcome (arr stri) :=
  let jel := e / 3 in
  let j := e mod 3 in
  t <- rd a k ;;
  t1 <- rd a jel ;;
  if s_v t1 j =? s_v t i then chg a k kill
  else if s_adj t1 j =? 0 then
    a <- chg a k (set_adj i (3 * jel + j)) ;;
    chg a jel (set_adj j (3 * k + i))
  else if s_adj t i =? 3 * jel + j then Ret a
  else
    let lel := s_adj t1 j / 3 in
    let l := s_adj t1 j mod 3 in
    a <- (if iso && ((s_ref t =? isoref) || (s_ref t <? 0)) then
            a <- chg a lel (set_adj l 0) ;;
            a <- chg a k (set_adj i (3 * jel + j)) ;;
            chg a jel (set_adj j (3 * k + i))
          else Ret a) ;;
    a <- chg a k (or_tag i T_NOM) ;;
    a <- chg a jel (or_tag j T_NOM) ;;
    chg a lel (or_tag l T_NOM).

(** One edge (hash.c:94-192); [None] is the return value 0. *)
Definition hedge (k i : Z) (o : option hst) : outcome (option hst) :=
  match o with
  | None => Ret None
  | Some (a, h) =>
      t <- rd a k ;;
      if negb (s_eok t) then Ret (Some (a, h))
      else if par_only (s_tag t i) then Ret (Some (a, h))
      else
        let ip1 := s_v t (nx i) in
        let ip2 := s_v t (pv i) in
        e <- hashGet h ip1 ip2 ;;
        if e =? 0 then
          '(r, h) <- hashEdge (gr (3 * k + i)) h ip1 ip2 (3 * k + i) ;;
          if r =? 0 then Ret None else Ret (Some (a, h))
        else
          a <- meet k i e a ;; Ret (Some (a, h))
  end.

(** One triangle (hash.c:83-193). *)
Definition htri (k : Z) (o : option hst) : outcome (option hst) :=
  match o with
  | None => Ret None
  | Some (a, h) =>
      t <- rd a k ;;
      if negb (s_eok t) then Ret (Some (a, h))
      else
        a <- chg a k (reset base) ;;
        o <- hedge k 0 (Some (a, h)) ;;
        o <- hedge k 1 o ;;
        hedge k 2 o
  end.

(** The edges on a boundary between processors only (hash.c:204-237). *)
Definition pedge (h : htab) (k i : Z) (a : arr stri) : outcome (arr stri) :=
  t <- rd a k ;;
  if negb (par_only (s_tag t i)) then Ret a
  else
    e <- hashGet h (s_v t (nx i)) (s_v t (pv i)) ;;
    if e =? 0 then Ret a
    else
      let jel := e / 3 in
      let j := e mod 3 in
      a <- chg a jel (or_tag j (T_BDY + T_PARBDYBDY)) ;;
      t1 <- rd a jel ;;
      let lel := s_adj t1 j / 3 in
      let l := s_adj t1 j mod 3 in
      if lel =? 0 then Ret a else chg a lel (or_tag l (T_BDY + T_PARBDYBDY)).

Definition ptri (h : htab) (k : Z) (a : arr stri) : outcome (arr stri) :=
  t <- rd a k ;;
  if negb (s_eok t) then Ret a
  else a <- pedge h k 0 a ;; a <- pedge h k 1 a ;; pedge h k 2 a.

(** The table has [np] heads and [3.71*np+1] items in all (hash.c:66-74). *)
Definition htable (np : Z) : outcome htab := hashNew (np - 1) (371 * np / 100 - 1).

(** [MMG5_mmgHashTria]: [None] for the value 0. *)
Definition hash_tria (np : Z) (a : arr stri) : outcome (option (arr stri)) :=
  h <- htable np ;;
  o <- for_range 1 nt htri (Some (a, h)) ;;
  match o with
  | None => Ret None
  | Some (a, h) => a <- for_range 1 nt (ptri h) a ;; Ret (Some a)
  end.

End HashTria.
