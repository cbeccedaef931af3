(** Removal of small components of the two sides of a level-set: [MMG3D_rmc]
    (mmg3d/mmg3d2.c:778-1010) and [MMG5_rmc] (common/mmg2.c:910-1180).

    One model for both: they differ in the number of vertices, in the faces containing a
    vertex, in the test that a neighbour is valid and in the volumes ([dim]).  The loops over
    the positive and the negative components differ in the sign tests, in the value written
    and in the treatment of base references ([pass]).  Simplifications: the pile is the list
    of its first [ipile] entries and pushing beyond its [n+1] cells is [Stuck]; the memory
    accounting of the pile is left out; the coordinates of a vertex are a total function; the
    reference of a face is replaced by the answer of [MMG5_isbr]; loops that stop at the first
    base reference found go on to the end. *)
From Coq Require Import ZArith QArith Qabs List Bool.
From Verif Require Import CBase BdryProofs OctModel SplitModel FracModel.
Import ListNotations.
Open Scope Z_scope.

(** Vertices, answer of [MMG5_isbr] for each face, [MG_EOK]. *)
Record elt := mkE { ver : nat -> Z; ebr : nat -> bool; eok : bool }.

(** Number of vertices; vertices of a face, which are also the faces containing a vertex
    ([MMG5_idir], or next and previous in a triangle); whether the neighbour is tested
    valid (mmg3d2.c:855); the part and the total volume of an element. *)
Record dim := mkDim { nv : nat; fac : nat -> list nat; chk : bool;
                      frac : (nat -> v3) -> (nat -> Q) -> Z -> outcome Q; volf : (nat -> v3) -> Q }.

Definition nxt2 (i : nat) : nat := match i with 0 => 1 | 1 => 2 | _ => 0 end%nat.

Definition d3 : dim :=
  mkDim 4 idir true vfrac3 (fun p => Qabs (det4pt (p 0%nat) (p 1%nat) (p 2%nat) (p 3%nat))).
Definition d2 : dim :=
  mkDim 3 (fun i => [nxt2 i; nxt2 (nxt2 i)]) false (fun p v pm => Ret (vfrac2 p v pm))
        (fun p => area2 (p 0%nat) (p 1%nat) (p 2%nat)).

Record rmesh := mkR { r_n : Z; r_elt : arr elt; r_adja : arr Z; r_pos : Z -> v3; r_rmc : Q; r_nbr : bool }.

(** Test of the value of a vertex: [> 0] in the first pass, [< 0] in the second. *)
Definition insideb (pm : Z) (x : Q) : bool := if pm =? 1 then Qltb 0 x else Qltb x 0.
(** [-100*MMG5_EPS] and [100*MMG5_EPS]. *)
Definition flipped (pm : Z) : Q := if pm =? 1 then (- (100 * EPS))%Q else (100 * EPS)%Q.

(** The values at the vertices of an element. *)
Definition rvals (d : dim) (sol : arr Q) (e : elt) : outcome (list Q) :=
  foldM (fun i l => x <- rd sol (ver e i) ;; Ret (l ++ [x])) (seq 0 (nv d)) [].

(** mmg3d2.c:791-796, mmg2.c:925-933 *)
Definition voltot (d : dim) (m : rmesh) : outcome Q :=
  for_range 1 (r_n m) (fun k s =>
    e <- rd (r_elt m) k ;;
    if negb (eok e) then Ret s else Ret (s + volf d (fun i => r_pos m (ver e i)))%Q) 0%Q.

(** A neighbour is piled up, mmg3d2.c:851-863, mmg2.c:1000-1012. *)
Definition push (m : rmesh) (pile : list Z) (l : Z) : outcome (list Z) :=
  if Z.of_nat (length pile) <? r_n m + 1 then Ret (pile ++ [l]) else Stuck.

Definition see (d : dim) (m : rmesh) (base l : Z) (s : option (arr Z * list Z)) : outcome (option (arr Z * list Z)) :=
  match s with
  | None => Ret None
  | Some (flg, pile) =>
      if l =? 0 then Ret s
      else
        e <- rd (r_elt m) l ;;
        f <- rd flg l ;;
        if (negb (chk d) || eok e) && negb (f =? base) then
          flg <- wr flg l base ;;
          pile <- push m pile l ;;
          if r_n m <? Z.of_nat (length pile) then Ret None else Ret (Some (flg, pile))
        else Ret s
  end.

(** mmg3d2.c:843-865, mmg2.c:988-1030 *)
Definition scan (d : dim) (m : rmesh) (pm base : Z) (sol : arr Q) (kk : Z) (e : elt) (s : option (arr Z * list Z)) :=
  foldM (fun i s =>
    x <- rd sol (ver e i) ;;
    if negb (insideb pm x) then Ret s
    else foldM (fun j s =>
      a <- rd (r_adja m) (Z.of_nat (nv d) * (kk - 1) + 1 + Z.of_nat j) ;;
      see d m base (a / Z.of_nat (nv d)) s) (fac d i) s) (seq 0 (nv d)) s.

(** mmg3d2.c:832-867, mmg2.c:976-1032 *)
Fixpoint bfs (d : dim) (m : rmesh) (pm base : Z) (sol : arr Q) (fuel : nat) (cur : nat) (volc : Q) (flg : arr Z) (pile : list Z)
  : outcome (option (Q * arr Z * list Z)) :=
  match fuel with
  | O => Stuck
  | Datatypes.S f =>
      match nth_error pile cur with
      | None => Stuck
      | Some kk =>
          e <- rd (r_elt m) kk ;;
          v <- rvals d sol e ;;
          x <- frac d (fun i => r_pos m (ver e i)) (fun i => nth i v 0%Q) pm ;;
          let volc := (volc + x)%Q in
          s <- scan d m pm base sol kk e (Some (flg, pile)) ;;
          match s with
          | None => Ret None
          | Some (flg, pile) =>
              if (Datatypes.S cur <? length pile)%nat then bfs d m pm base sol f (Datatypes.S cur) volc flg pile
              else Ret (Some (volc, flg, pile))
          end
      end
  end.

(** The values of a component change, mmg3d2.c:870-881, 957-966. *)
Definition flip (d : dim) (m : rmesh) (pm : Z) (pile : list Z) (sol : arr Q) : outcome (arr Q) :=
  foldM (fun k sol =>
    e <- rd (r_elt m) k ;;
    foldM (fun i sol =>
      x <- rd sol (ver e i) ;;
      if insideb pm x then wr sol (ver e i) (flipped pm) else Ret sol) (seq 0 (nv d)) sol) pile sol.

(** mmg3d2.c:970-990, mmg2.c:1125-1150 *)
Definition attached (d : dim) (m : rmesh) (pm : Z) (pile : list Z) (sol : arr Q) : outcome bool :=
  foldM (fun k b =>
    e <- rd (r_elt m) k ;;
    foldM (fun i b =>
      if ebr e i then
        foldM (fun j (b : bool) => x <- rd sol (ver e j) ;; Ret (b || insideb pm x)) (fac d i) b
      else Ret b) (seq 0 (nv d)) b) pile false.

(** One element of the loops mmg3d2.c:810-885 and 890-1000. *)
Definition pass_step (d : dim) (m : rmesh) (pm base : Z) (tot : Q) (k : Z) (s : option (arr Z * arr Q * Z))
  : outcome (option (arr Z * arr Q * Z)) :=
  match s with
  | None => Ret None
  | Some (flg, sol, nc) =>
      e <- rd (r_elt m) k ;;
      if negb (eok e) then Ret s
      else
        f <- rd flg k ;;
        if f =? base then Ret s
        else
          v <- rvals d sol e ;;
          if negb (existsb (insideb pm) v) then Ret s
          else
            flg <- wr flg k base ;;
            pile <- push m [] k ;;
            if r_n m <? Z.of_nat (length pile) then Ret None
            else
              r <- bfs d m pm base sol (Z.to_nat (r_n m)) 0 0%Q flg pile ;;
              match r with
              | None => Ret None
              | Some (volc, flg, pile) =>
                  ' (sol, nc) <-
                    (if Qltb volc (r_rmc m * tot) then sol <- flip d m pm pile sol ;; Ret (sol, nc + 1) else Ret (sol, nc)) ;;
                  if r_nbr m && (pm =? -1) then
                    b <- attached d m pm pile sol ;;
                    if b then Ret (Some (flg, sol, nc))
                    else sol <- flip d m pm pile sol ;; Ret (Some (flg, sol, nc + 1))
                  else Ret (Some (flg, sol, nc))
              end
  end.

Definition pass (d : dim) (m : rmesh) (pm base : Z) (tot : Q) (flg : arr Z) (sol : arr Q) :=
  for_range 1 (r_n m) (pass_step d m pm base tot) (Some (flg, sol, 0)).

(** [MMG3D_rmc], [MMG5_rmc]: values of the level-set, numbers of removed components.  The
    flags of the elements are erased on entry. *)
Definition rmc (d : dim) (m : rmesh) (base : Z) (sol : arr Q) : outcome (option (arr Q * Z * Z)) :=
  tot <- voltot d m ;;
  r <- pass d m 1 (base + 1) tot (acalloc (r_n m + 1) 0) sol ;;
  match r with
  | None => Ret None
  | Some (flg, sol, ncp) =>
      r <- pass d m (-1) (base + 2) tot flg sol ;;
      match r with
      | None => Ret None
      | Some (_, sol, ncm) => Ret (Some (sol, ncp, ncm))
      end
  end.
