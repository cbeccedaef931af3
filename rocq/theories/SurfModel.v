(** The orientation of the boundary triangles: [MMG5_setadj]
    (/repo/src/mmg3d/analys_3d.c:108-307).

    The function walks through the triangles from neighbour to neighbour,
    numbers the connected components, gives neighbours the same orientation by
    exchanging two vertices of a triangle, and reports the surfaces on which
    this is impossible (Moebius strips).

    Not modelled: the marks and tags of the vertices ([point.tmp],
    [point.tag]), the counters that are only printed ([nvf], [ned], [nf], the
    final count), and the failure of the allocation of the pile.  The
    adjacency table [mesh->adjt] is kept with the triangle: [s_adj t i] is
    [adjt\[3*(k-1)+1+i\]] for the triangle number [k]. *)
From Coq Require Import ZArith List Bool Lia.
From Verif Require Import CBase.
Import ListNotations.
Open Scope Z_scope.

(** Tags, mmgcommon_private.h:145-156. *)
Definition T_REF : Z := 1.
Definition T_NOM : Z := 8.
Definition T_BDY : Z := 16.
Definition T_OPN : Z := 128.
Definition T_PARBDYBDY : Z := 4096.
Definition T_PARBDY : Z := 8192.

Definition tst (t b : Z) : bool := negb (Z.land t b =? 0).

(** [MMG5_inxt2] and [MMG5_iprv2], mmgcommon_private.h: {1,2,0} and {2,0,1}. *)
Definition nx (i : Z) : Z := if i =? 0 then 1 else if i =? 1 then 2 else 0.
Definition pv (i : Z) : Z := if i =? 0 then 2 else if i =? 1 then 0 else 1.

(** A triangle ([MMG5_Tria], libmmgtypes.h:332-348) with its three adjacents. *)
Record stri : Type := mkS {
  s_v : Z -> Z;
  s_tag : Z -> Z;
  s_edg : Z -> Z;
  s_adj : Z -> Z;
  s_ref : Z;
  s_flag : Z;
  s_base : Z;
  s_cc : Z   (** used by [MMGS_setadj] only *)
}.

Definition set_flag (f : Z) (t : stri) : stri :=
  mkS (s_v t) (s_tag t) (s_edg t) (s_adj t) (s_ref t) f (s_base t) (s_cc t).
Definition neg_base (t : stri) : stri :=
  mkS (s_v t) (s_tag t) (s_edg t) (s_adj t) (s_ref t) (s_flag t) (- s_base t) (s_cc t).
Definition or_tag (i b : Z) (t : stri) : stri :=
  mkS (s_v t) (upd (s_tag t) i (Z.lor (s_tag t i) b)) (s_edg t) (s_adj t)
      (s_ref t) (s_flag t) (s_base t) (s_cc t).
Definition set_adj (i a : Z) (t : stri) : stri :=
  mkS (s_v t) (s_tag t) (s_edg t) (upd (s_adj t) i a) (s_ref t) (s_flag t) (s_base t) (s_cc t).

(** Exchange of the entries [i] and [j]. *)
Definition swp (i j : Z) (f : Z -> Z) : Z -> Z := upd (upd f i (f j)) j (f i).

(** The exchange of the ends of the edge [ii] of a triangle: the new vertices
    are [ip2] and [ip1], and the adjacents, tags and references of the two
    other edges are exchanged (analys_3d.c:214-233). *)
Definition turn_tri (ii ip1 ip2 : Z) (t : stri) : stri :=
  let ii1 := nx ii in
  let ii2 := pv ii in
  mkS (upd (upd (s_v t) ii1 ip2) ii2 ip1)
      (swp ii1 ii2 (s_tag t)) (swp ii1 ii2 (s_edg t)) (swp ii1 ii2 (s_adj t))
      (s_ref t) (s_flag t) (- s_base t) (s_cc t).

(** [mesh->tria\[k\]] read, changed, written. *)
Definition chg (a : arr stri) (k : Z) (f : stri -> stri) : outcome (arr stri) :=
  t <- rd a k ;; wr a k (f t).

(** The adjacent of the edge [i] of the triangle [kk], when there is one, is
    told that it is now behind this edge (analys_3d.c:235-245). *)
Definition voyeur (a : arr stri) (kk i : Z) : outcome (arr stri) :=
  t <- rd a kk ;;
  if s_adj t i =? 0 then Ret a
  else chg a (s_adj t i / 3) (set_adj (s_adj t i mod 3) (3 * kk + i)).

(** MG_EOK, mmgcommon_private.h:167. *)
Definition s_eok (t : stri) : bool := 0 <? s_v t 0.

(** The edges that are not looked at (analys_3d.c:133-134). *)
Definition skipped (tag : Z) : bool :=
  (tst tag T_PARBDY && negb (tst tag T_PARBDYBDY)) || tst tag T_BDY.

(** [nt] is [mesh->nt], the pile has [nt+1] cells of which the first is not
    used; [pile] is what it holds, the top first. *)
Record sst : Type := mkSS { tr : arr stri; pile : list Z }.

Section Setadj.
Variable nt : Z.
Variable opn : bool.   (** [info.opnbdy] *)

(** [pile\[++ipil\] = kk]. *)
Definition push (kk : Z) (p : list Z) : outcome (list Z) :=
  _ <- c_assert (Z.of_nat (length p) + 1 <=? nt) ;; Ret (kk :: p).

(** The orientation of the adjacent [kk] behind its edge [ii]
    (analys_3d.c:201-253); [None] is the failure "Moebius strip?". *)
Definition orient (a : arr stri) (kk ii ip1 ip2 : Z) : outcome (option (arr stri)) :=
  t1 <- rd a kk ;;
  if s_v t1 (nx ii) =? ip1 then
    _ <- c_assert (negb (s_base t1 =? 0)) ;;
    if s_base t1 <? 0 then Ret None
    else
      a <- chg a kk (turn_tri ii ip1 ip2) ;;
      a <- voyeur a kk (nx ii) ;;
      a <- voyeur a kk (pv ii) ;;
      Ret (Some a)
  else
    a <- chg a kk neg_base ;; Ret (Some a).

(** One edge of the triangle [k] (analys_3d.c:132-254). *)
Definition visit (ncc k i : Z) (s : sst) : outcome (option sst) :=
  t <- rd (tr s) k ;;
  if skipped (s_tag t i) then Ret (Some s)
  else
    let ip1 := s_v t (nx i) in
    let ip2 := s_v t (pv i) in
    if s_adj t i =? 0 then
      a <- chg (tr s) k (or_tag i ((if opn then T_OPN else 0) + T_NOM)) ;;
      Ret (Some (mkSS a (pile s)))
    else
      let kk := s_adj t i / 3 in
      let ii := s_adj t i mod 3 in
      if tst (s_tag t i) T_NOM then Ret (Some s)
      else
        t1 <- rd (tr s) kk ;;
        a <- (if Z.abs (s_ref t1) =? Z.abs (s_ref t) then Ret (tr s)
              else a <- chg (tr s) k (or_tag i T_REF) ;; chg a kk (or_tag ii T_REF)) ;;
        '(a, p) <- (if s_flag t1 =? 0
                    then a <- chg a kk (set_flag ncc) ;; p <- push kk (pile s) ;; Ret (a, p)
                    else Ret (a, pile s)) ;;
        o <- orient a kk ii ip1 ip2 ;;
        match o with
        | None => Ret None
        | Some a => Ret (Some (mkSS a p))
        end.

(** The three edges of the triangle taken from the pile (analys_3d.c:126-255). *)
Definition process (ncc k : Z) (s : sst) : outcome (option sst) :=
  a <- chg (tr s) k (set_flag ncc) ;;
  t <- rd a k ;;
  if negb (s_eok t) then Ret (Some (mkSS a (pile s)))
  else
    o <- visit ncc k 0 (mkSS a (pile s)) ;;
    match o with
    | None => Ret None
    | Some s =>
        o <- visit ncc k 1 s ;;
        match o with
        | None => Ret None
        | Some s => visit ncc k 2 s
        end
    end.

(** The next triangle without a number (analys_3d.c:258-268). *)
Fixpoint next_free (fuel : nat) (kk : Z) (a : arr stri) : outcome (option Z) :=
  match fuel with
  | O => Ret None
  | S f =>
      t <- rd a kk ;;
      if s_eok t && (s_flag t =? 0) then Ret (Some kk) else next_free f (kk + 1) a
  end.

(** The two loops (analys_3d.c:122-269). *)
Fixpoint loop (fuel : nat) (ncc : Z) (s : sst) : outcome (option (Z * arr stri)) :=
  match fuel with
  | O => Stuck
  | S f =>
      match pile s with
      | k :: p =>
          o <- process ncc k (mkSS (tr s) p) ;;
          match o with
          | None => Ret None
          | Some s => loop f ncc s
          end
      | [] =>
          o <- next_free (Z.to_nat nt) 1 (tr s) ;;
          match o with
          | None => Ret (Some (ncc, tr s))
          | Some kk =>
              a <- chg (tr s) kk (set_flag (ncc + 1)) ;;
              p <- push kk [] ;;
              loop f (ncc + 1) (mkSS a p)
          end
      end
  end.

(** [MMG5_setadj]: [None] for the value 0; otherwise the number of components
    that is printed, and the triangles. *)
Definition setadj (a : arr stri) : outcome (option (Z * arr stri)) :=
  p <- push 1 [] ;;
  loop (Z.to_nat (2 * nt + 2)) 1 (mkSS a p).

(** ** [MMGS_setadj] (/repo/src/mmgs/analys_s.c:47-246)

    The same walk in mmgs: an edge with the tag MG_NOM on one side gets it on the
    other, and a conflict of orientation is not an error but a new non-manifold
    edge.  The same parts are left out. *)

Definition set_cc (c : Z) (t : stri) : stri :=
  mkS (s_v t) (s_tag t) (s_edg t) (s_adj t) (s_ref t) (s_flag t) (s_base t) c.
Definition set_edge (i tag edg : Z) (t : stri) : stri :=
  mkS (s_v t) (upd (s_tag t) i tag) (upd (s_edg t) i edg) (s_adj t) (s_ref t) (s_flag t) (s_base t) (s_cc t).
Definition neg_ref (t : stri) : stri :=
  mkS (s_v t) (s_tag t) (s_edg t) (s_adj t) (- Z.abs (s_ref t)) (s_flag t) (s_base t) (s_cc t).

Definition T_GEO : Z := 2.

(** One edge of the triangle [k] (analys_s.c:75-193). *)
Definition visit_s (k i : Z) (s : sst) : outcome sst :=
  t <- rd (tr s) k ;;
  let ip1 := s_v t (nx i) in
  let ip2 := s_v t (pv i) in
  if s_adj t i =? 0 then
    a <- chg (tr s) k (or_tag i T_GEO) ;; Ret (mkSS a (pile s))
  else
    let kk := s_adj t i / 3 in
    let ii := s_adj t i mod 3 in
    t1 <- rd (tr s) kk ;;
    if tst (s_tag t i) T_NOM && negb (tst (s_tag t1 ii) T_NOM) then
      a <- chg (tr s) kk (set_edge ii (s_tag t i) (s_edg t i)) ;; Ret (mkSS a (pile s))
    else if tst (s_tag t1 ii) T_NOM && negb (tst (s_tag t i) T_NOM) then
      a <- chg (tr s) k (set_edge i (s_tag t1 ii) (s_edg t1 ii)) ;; Ret (mkSS a (pile s))
    else
      a <- (if Z.abs (s_ref t1) =? Z.abs (s_ref t) then Ret (tr s)
            else a <- chg (tr s) k (or_tag i T_REF) ;; chg a kk (or_tag ii T_REF)) ;;
      t1 <- rd a kk ;;
      if tst (s_tag t1 ii) T_NOM then Ret (mkSS a (pile s))
      else
        '(a, p) <- (if s_flag t1 =? 0
                    then a <- chg a kk (set_flag 1) ;; p <- push kk (pile s) ;; Ret (a, p)
                    else Ret (a, pile s)) ;;
        t1 <- rd a kk ;;
        if s_v t1 (nx ii) =? ip1 then
          _ <- c_assert (negb (s_base t1 =? 0)) ;;
          if s_base t1 <? 0 then
            a <- chg a kk neg_ref ;;
            a <- chg a k (or_tag i (T_REF + T_NOM)) ;;
            a <- chg a kk (or_tag ii (T_REF + T_NOM)) ;;
            Ret (mkSS a p)
          else
            a <- chg a kk (turn_tri ii ip1 ip2) ;;
            a <- voyeur a kk (nx ii) ;;
            a <- voyeur a kk (pv ii) ;;
            Ret (mkSS a p)
        else
          a <- chg a kk neg_base ;; Ret (mkSS a p).

(** The triangle taken from the pile (analys_s.c:67-194). *)
Definition process_s (ncc k : Z) (s : sst) : outcome sst :=
  a <- chg (tr s) k (set_flag 1) ;;
  t <- rd a k ;;
  if negb (s_eok t) then Ret (mkSS a (pile s))
  else
    a <- chg a k (set_cc ncc) ;;
    s <- visit_s k 0 (mkSS a (pile s)) ;;
    s <- visit_s k 1 s ;;
    visit_s k 2 s.

(** The next triangle without component (analys_s.c:197-207). *)
Fixpoint next_free_s (fuel : nat) (kk : Z) (a : arr stri) : outcome (option Z) :=
  match fuel with
  | O => Ret None
  | S f =>
      t <- rd a kk ;;
      if s_eok t && (s_cc t =? 0) then Ret (Some kk) else next_free_s f (kk + 1) a
  end.

(** The two loops (analys_s.c:64-208). *)
Fixpoint loop_s (fuel : nat) (ncc : Z) (s : sst) : outcome (Z * arr stri) :=
  match fuel with
  | O => Stuck
  | S f =>
      match pile s with
      | k :: p => s <- process_s ncc k (mkSS (tr s) p) ;; loop_s f ncc s
      | [] =>
          o <- next_free_s (Z.to_nat nt) 1 (tr s) ;;
          match o with
          | None => Ret (ncc, tr s)
          | Some kk =>
              a <- chg (tr s) kk (set_flag 1) ;;
              p <- push kk [] ;;
              loop_s f (ncc + 1) (mkSS a p)
          end
      end
  end.

Definition setadj_s (a : arr stri) : outcome (Z * arr stri) :=
  p <- push 1 [] ;;
  loop_s (Z.to_nat (2 * nt + 2)) 1 (mkSS a p).

End Setadj.
