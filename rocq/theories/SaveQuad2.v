(** The quadrilaterals in the text files of Mmg2d: what [MMG2D_saveMesh]
    (/repo/src/mmg2d/inout_2d.c:1431-1508) writes and what [MMG2D_loadMesh]
    (/repo/src/mmg2d/inout_2d.c:81-136, 454-506) reads again.

    A file is a list of words; [fscanf] skips the blanks.  Not modelled: binary
    files, the other sections of the file, comments, and the marks of the
    vertices (lines 475-478).  [MMG_FSCANF] is the one of the systems
    with MMG_POSIX (mmgcommon_private.h:463-472). *)
From Coq Require Import ZArith List Bool Lia.
From Verif Require Import CBase SurfModel Tria2 Quad2.
Import ListNotations.
Open Scope Z_scope.

Inductive kword : Type := WQuads | WRequired | WEnd.
Inductive tok : Type := Num (z : Z) | Word (w : kword).

(** ** Writing *)

(** inout_2d.c:1442-1443: the four sides are required.  The marks of a
    quadrilateral are a list of four. *)
Definition req4 (t : list Z) : bool := forallb (fun x => tst x G_REQ) t.

Section Save.
(** Quadrilaterals, their marks and references, numbers of the vertices in the file. *)
Variables (nq : Z) (a : arr quad) (tg : arr (list Z)) (rf tmp : arr Z).

(** inout_2d.c:1436-1447. *)
Definition count_saved : outcome (Z * Z) :=
  for_range 1 nq (fun k st =>
    let '(n, r) := st in
    q <- rd a k ;;
    if 0 <? q_v q 0 then t <- rd tg k ;; Ret (n + 1, if req4 t then r + 1 else r) else Ret st) (0, 0).

(** inout_2d.c:1462-1480; [r] is [nqreq]. *)
Definition write_quads (r : Z) : outcome (list tok * Z) :=
  for_range 1 nq (fun k st =>
    let '(out, r) := st in
    q <- rd a k ;;
    if 0 <? q_v q 0 then
      t0 <- rd tmp (q_v q 0) ;;
      t1 <- rd tmp (q_v q 1) ;;
      t2 <- rd tmp (q_v q 2) ;;
      t3 <- rd tmp (q_v q 3) ;;
      e <- rd rf k ;;
      t <- rd tg k ;;
      Ret (out ++ [Num t0; Num t1; Num t2; Num t3; Num e], if req4 t then r + 1 else r)
    else Ret st) ([], r).

(** inout_2d.c:1493-1503. *)
Definition write_required : outcome (list tok) :=
  for_range 0 nq (fun k out => t <- rd tg k ;; Ret (if req4 t then out ++ [Num k] else out)) [].

(** inout_2d.c:1431-1509. *)
Definition save_quads : outcome (list tok) :=
  '(n, r) <- count_saved ;;
  if n =? 0 then Ret [Word WEnd]
  else
    '(qs, r) <- write_quads r ;;
    rs <- (if r =? 0 then Ret [] else l <- write_required ;; Ret (Word WRequired :: Num r :: l)) ;;
    Ret (Word WQuads :: Num n :: qs ++ rs ++ [Word WEnd]).

End Save.

(** ** Reading *)

(** Numbers announced and places in the file. *)
Record places : Type := mkP { p_nq : Z; p_quads : list tok; p_nr : Z; p_req : list tok }.

(** inout_2d.c:81-136: the keywords; [None] is the return of -1 by [MMG_FSCANF]. *)
Fixpoint scan (l : list tok) (s : places) : option places :=
  match l with
  | [] => Some s
  | Word WEnd :: _ => Some s
  | Word WQuads :: Num n :: l' => scan l' (mkP n l' (p_nr s) (p_req s))
  | Word WRequired :: Num n :: l' => scan l' (mkP (p_nq s) (p_quads s) n l')
  | Word _ :: _ => None
  | Num _ :: l' => scan l' s
  end.

(** inout_2d.c:459-485: vertices and reference, without its sign. *)
Fixpoint read_quads (n : nat) (l : list tok) : option (list (Z * Z * Z * Z * Z)) :=
  match n with
  | O => Some []
  | S n =>
    match l with
    | Num t0 :: Num t1 :: Num t2 :: Num t3 :: Num e :: l' =>
      match read_quads n l' with Some r => Some ((t0, t1, t2, t3, if e <? 0 then - e else e) :: r) | None => None end
    | _ => None
    end
  end.

(** inout_2d.c:490-505; [None] is the return of -1 by [MMG_FSCANF]. *)
Fixpoint read_required (nq : Z) (n : nat) (l : list tok) (tg : arr (list Z)) : outcome (option (arr (list Z))) :=
  match n with
  | O => Ret (Some tg)
  | S n =>
    match l with
    | Num i :: l' =>
      if nq <? i then read_required nq n l' tg
      else
        t <- rd tg i ;;
        tg' <- wr tg i (map (fun x => Z.lor x G_REQ) t) ;;
        read_required nq n l' tg'
    | _ => Ret None
    end
  end.

(** inout_2d.c:454-506 after the keywords.  The table of the quadrilaterals is
    allocated with zeros. *)
Definition load_quads (l : list tok) : outcome (option (list (Z * Z * Z * Z * Z) * arr (list Z))) :=
  match scan l (mkP 0 [] 0 []) with
  | None => Ret None
  | Some s =>
    let tg := acalloc (p_nq s + 1) [0; 0; 0; 0] in
    match read_quads (Z.to_nat (p_nq s)) (p_quads s) with
    | None => Ret None
    | Some qs =>
      if p_nq s =? 0 then Ret (Some (qs, tg))
      else
        r <- read_required (p_nq s) (Z.to_nat (p_nr s)) (p_req s) tg ;;
        Ret (match r with Some tg' => Some (qs, tg') | None => None end)
    end
  end.
