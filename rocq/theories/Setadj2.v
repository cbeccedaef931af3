(** [MMG2D_setadj] (/repo/src/mmg2d/analys_2d.c:50-267): the marks of the edges and of
    the vertices at the boundaries and the numbers of the subdomains.

    The marks of the edges are kept beside the triangles, in an array with the
    same places as the adjacencies; so are the numbers [cc] and the marks of the
    vertices.  Not modelled: the
    quadrilaterals (analys_2d.c:221-259, see QuadFreeze2.v), the
    counters that are only printed ([nr], [nref]), the failure of the allocation
    of the pile. *)
From Coq Require Import ZArith List Bool Lia.
From Verif Require Import CBase SurfModel Tria2.
Import ListNotations.
Open Scope Z_scope.

(** MG_PARBDY, mmgcommon_private.h:155. *)
Definition G_PAR : Z := 8192.

(** Place of the side [i] of the triangle [k]. *)
Definition cell (k i : Z) : Z := 3 * (k - 1) + 1 + i.

(** State: marks of the edges, [cc], marks of the vertices, pile (top first; the
    array has [nt+1] cells, the first is not used). *)
Record st2 : Type := mkSt { g_tg : arr Z; g_cc : arr Z; g_pt : arr Z; g_pile : list Z }.

(** [MG_EDG(tag) || (tag & MG_REQ)], analys_2d.c:124; mmgcommon_private.h:173. *)
Definition edg (tag : Z) : bool := tst tag G_GEO || tst tag G_REF || tst tag G_REQ.

(** [tag &= ~MG_REF; tag &= ~MG_BDY; tag &= ~MG_GEO], analys_2d.c:105-111. *)
Definition clr (tag : Z) : Z := Z.ldiff (Z.ldiff (Z.ldiff tag G_REF) G_BDY) G_GEO.

(** A mark [tg] added, with MG_REQ and MG_NOSURF when it is [fz] and not
    required already (analys_2d.c:131-154, 166-194). *)
Definition frz (fz : bool) (cur tg : Z) : Z :=
  if negb (tst cur G_REQ) && fz then Z.lor cur (tg + G_REQ + G_NOSURF) else Z.lor cur tg.

Definition orw (w : arr Z) (p x : Z) : outcome (arr Z) := y <- rd w p ;; wr w p (Z.lor y x).
Definition frw (fz : bool) (w : arr Z) (p x : Z) : outcome (arr Z) := y <- rd w p ;; wr w p (frz fz y x).

Section Setadj2.
(** [info.opnbdy], [info.nosurf], number of triangles, triangles, adjacencies. *)
Variables (opn nosurf : bool) (nt : Z) (a : arr tri) (adj : arr Z).

(** [pile\[++ipil\] = kk]. *)
Definition push2 (kk : Z) (p : list Z) : outcome (list Z) :=
  _ <- c_assert (Z.of_nat (length p) + 1 <=? nt) ;; Ret (kk :: p).

(** The marks of both sides of an edge (analys_2d.c:97-121). *)
Definition merge2 (strip : bool) (c d : Z) (tg : arr Z) : outcome (arr Z) :=
  tg <- (if strip then
           y <- rd tg c ;; tg <- wr tg c (clr y) ;;
           z <- rd tg d ;; wr tg d (clr z)
         else Ret tg) ;;
  y <- rd tg c ;; z <- rd tg d ;;
  tg <- wr tg d (Z.lor z y) ;;
  y <- rd tg c ;; z <- rd tg d ;;
  wr tg c (Z.lor y z).

(** The side [i] of the triangle [k] (analys_2d.c:92-202). *)
Definition visit2 (ncc k i : Z) (s : st2) : outcome st2 :=
  t <- rd a k ;;
  let ip1 := t_v t (nx i) in
  let ip2 := t_v t (pv i) in
  x <- rd adj (cell k i) ;;
  let kk := Z.quot x 3 in
  let ii := Z.rem x 3 in
  tg <- (if x =? 0 then Ret (g_tg s)
         else
           t1 <- rd a kk ;;
           merge2 (negb opn && (t_ref t =? t_ref t1)) (cell k i) (cell kk ii) (g_tg s)) ;;
  y <- rd tg (cell k i) ;;
  w <- (if edg y then w <- orw (g_pt s) ip1 y ;; orw w ip2 y else Ret (g_pt s)) ;;
  if x =? 0 then
    let fz := nosurf || tst y G_PAR in
    tg <- wr tg (cell k i) (frz fz y (G_GEO + G_BDY)) ;;
    w <- frw fz w ip1 (G_GEO + G_BDY) ;;
    w <- frw fz w ip2 (G_GEO + G_BDY) ;;
    Ret (mkSt tg (g_cc s) w (g_pile s))
  else
    t1 <- rd a kk ;;
    z <- rd tg (cell kk ii) ;;
    if (opn && (negb (y =? 0) || negb (z =? 0))) || negb (Z.abs (t_ref t1) =? Z.abs (t_ref t)) then
      tg <- wr tg (cell k i) (frz nosurf y (G_REF + G_BDY)) ;;
      z <- rd tg (cell kk ii) ;;
      tg <- wr tg (cell kk ii) (frz nosurf z (G_REF + G_BDY)) ;;
      w <- frw nosurf w ip1 (G_REF + G_BDY) ;;
      w <- frw nosurf w ip2 (G_REF + G_BDY) ;;
      Ret (mkSt tg (g_cc s) w (g_pile s))
    else
      c <- rd (g_cc s) kk ;;
      if 0 <? c then Ret (mkSt tg (g_cc s) w (g_pile s))
      else
        p <- push2 kk (g_pile s) ;;
        cc <- wr (g_cc s) kk ncc ;;
        Ret (mkSt tg cc w p).

(** The triangle taken from the pile (analys_2d.c:84-203). *)
Definition process2 (ncc k : Z) (s : st2) : outcome st2 :=
  t <- rd a k ;;
  if t_eok t then
    s <- visit2 ncc k 0 s ;; s <- visit2 ncc k 1 s ;; visit2 ncc k 2 s
  else Ret s.

(** The next triangle without number (analys_2d.c:206-217). *)
Fixpoint next2 (fuel : nat) (kk : Z) (cc : arr Z) : outcome (option Z) :=
  match fuel with
  | O => Ret None
  | S f =>
      t <- rd a kk ;; c <- rd cc kk ;;
      if negb (t_v t 0 =? 0) && (c =? 0) then Ret (Some kk) else next2 f (kk + 1) cc
  end.

(** The two loops (analys_2d.c:81-218): the number of components and the state. *)
Fixpoint loop2 (fuel : nat) (ncc : Z) (s : st2) : outcome (Z * st2) :=
  match fuel with
  | O => Stuck
  | S f =>
      match g_pile s with
      | k :: p => s <- process2 ncc k (mkSt (g_tg s) (g_cc s) (g_pt s) p) ;; loop2 f ncc s
      | [] =>
          o <- next2 (Z.to_nat nt) 1 (g_cc s) ;;
          match o with
          | None => Ret (ncc, s)
          | Some kk =>
              p <- push2 kk [] ;;
              cc <- wr (g_cc s) kk (ncc + 1) ;;
              loop2 f (ncc + 1) (mkSt (g_tg s) cc (g_pt s) p)
          end
      end
  end.

(** [MMG2D_setadj], [nt > 0]; [init] is [init_cc]. *)
Definition setadj2 (init : bool) (tg cc w : arr Z) : outcome (Z * st2) :=
  cc <- (if init then for_range 1 nt (fun k cc => wr cc k 0) cc else Ret cc) ;;
  p <- push2 1 [] ;;
  cc <- wr cc 1 1 ;;
  loop2 (Z.to_nat (2 * nt + 2)) 1 (mkSt tg cc w p).
End Setadj2.
