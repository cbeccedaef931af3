(** The solutions set and read through the API:
    [MMG3D_Set_solSize] (/repo/src/mmg3d/API_functions_3d.c:116-159), the setters
    and getters of scalars, vectors and tensors (:1433-1752), their variants for
    the i-th field of an array of solutions (:1754-1880); the same functions of
    Mmg2d (/repo/src/mmg2d/API_functions_2d.c:520-562, 1443-1858) and of Mmgs
    (/repo/src/mmgs/API_functions_s.c), where they have the code of Mmg3d.

    The values are only copied: they belong to any type [V], with the value [v0]
    that [calloc] leaves.  The array [met->m] is a checked array, of length 0
    when the pointer is NULL.

    Simplifications: the values of a call at one vertex are a list, and a getter
    returns the list of the values that it writes in the arguments or in the
    array of the user; the memory counter is the Boolean [grant], the answer to
    the request of [MMG3D_Set_solSize]; messages, [dim], [ver], the names and
    [metRidTyp] are left out. *)
From Coq Require Import ZArith List Bool Lia.
From Verif Require Import CBase.
Import ListNotations.
Open Scope Z_scope.

Inductive prog : Type := Mmg3d | Mmg2d | Mmgs.
Inductive kind : Type := Scalar | Vector | Tensor.

(** [enum MMG5_type] (common/libmmgtypes.h:217-222). *)
Definition kind_of (typ : Z) : option kind :=
  if typ =? 1 then Some Scalar else if typ =? 2 then Some Vector
  else if typ =? 3 then Some Tensor else None.

(** [MMG5_Vertex] (libmmgtypes.h:228-230). *)
Definition E_VERTEX : Z := 1.

(** [sol->size] (API_functions_3d.c:129-140, API_functions_2d.c:533-541), and
    the number of values of one call. *)
Definition ncomp (p : prog) (k : kind) : Z :=
  match k, p with
  | Scalar, _ => 1
  | Vector, Mmg2d => 2
  | Vector, _ => 3
  | Tensor, Mmg2d => 3
  | Tensor, _ => 6
  end.

Section SolApi.
Variable V : Type.
Variable v0 : V.

Record sol : Type := mkSol {
  so_np : Z;
  so_npi : Z;
  so_npmax : Z;
  so_size : Z;
  so_type : Z;
  so_m : arr V
}.

Definition set_npi (n : Z) (s : sol) : sol :=
  mkSol (so_np s) n (so_npmax s) (so_size s) (so_type s) (so_m s).
Definition set_m (m : arr V) (s : sol) : sol :=
  mkSol (so_np s) (so_npi s) (so_npmax s) (so_size s) (so_type s) m.
Definition set_kind (typ size : Z) (s : sol) : sol :=
  mkSol (so_np s) (so_npi s) (so_npmax s) size typ (so_m s).

Definition no_array : arr V := mkArr 0 (fun _ => v0).

(** [MMG3D_Set_solSize]; [mmax] is [mesh->npmax]. *)
Definition set_size (p : prog) (mmax typEntity np typSol : Z) (grant : bool) (s : sol) : Z * sol :=
  if negb (typEntity =? E_VERTEX) then (0, s)
  else
    match kind_of typSol with
    | None => (0, set_kind typSol (so_size s) s)
    | Some k =>
        let s := set_kind typSol (ncomp p k) s in
        if np =? 0 then (1, s)
        else if negb grant then (0, mkSol np np mmax (so_size s) typSol no_array)
        else (1, mkSol np np mmax (so_size s) typSol (acalloc (so_size s * (mmax + 1)) v0))
    end.

(** Copies of consecutive values. *)
Fixpoint put (m : arr V) (b : Z) (vs : list V) : outcome (arr V) :=
  match vs with
  | [] => Ret m
  | v :: vs => m <- wr m b v ;; put m (b + 1) vs
  end.

Fixpoint take (m : arr V) (b : Z) (n : nat) : outcome (list V) :=
  match n with
  | O => Ret []
  | S n => v <- rd m b ;; vs <- take m (b + 1) n ;; Ret (v :: vs)
  end.

(** Where the values at one vertex are (API_functions_3d.c:1464, 1492, 1551-1553,
    1585-1587, 1659-1664, 1697-1702; API_functions_2d.c:1469, 1500, 1564-1567,
    1596-1597, 1666-1669, 1699-1702). *)
Definition place (p : prog) (k : kind) (s : sol) (pos : Z) : Z :=
  match p, k with
  | Mmg2d, Scalar => pos
  | Mmg2d, Vector => (pos - 1) * so_size s + 1
  | Mmg2d, Tensor => pos * so_size s
  | _, _ => ncomp p k * pos
  end.

(** The same in the functions for all the vertices, where the size is a constant
    (API_functions_3d.c:1509, 1521, 1606-1609, 1619-1622, 1722-1730, 1741-1749;
    API_functions_2d.c:1515, 1525, 1615-1618, 1629-1633, 1720-1726, 1736-1742). *)
Definition place_all (p : prog) (k : kind) (pos : Z) : Z :=
  match p, k with
  | Mmg2d, Vector => 2 * (pos - 1) + 1
  | _, _ => ncomp p k * pos
  end.

(** [pos < 1] is not tested for the scalars and tensors of Mmg2d
    (API_functions_2d.c:1443-1468, 1640-1665). *)
Definition tests_low (p : prog) (k : kind) : bool :=
  match p, k with
  | Mmg2d, Scalar => false
  | Mmg2d, Tensor => false
  | _, _ => true
  end.

(** [MMG3D_Set_scalarSol], [MMG3D_Set_vectorSol], [MMG3D_Set_tensorSol]. *)
Definition set_one (p : prog) (k : kind) (s : sol) (vs : list V) (pos : Z) : outcome (Z * sol) :=
  if so_np s =? 0 then Ret (0, s)
  else if tests_low p k && (pos <? 1) then Ret (0, s)
  else if pos >=? so_npmax s then Ret (0, s)
  else if pos >? so_np s then Ret (0, s)
  else m <- put (so_m s) (place p k s pos) vs ;; Ret (1, set_m m s).

(** [MMG3D_Get_scalarSol], [MMG3D_Get_vectorSol], [MMG3D_Get_tensorSol]. *)
Definition get_one (p : prog) (k : kind) (s : sol) : outcome (Z * list V * sol) :=
  let npi := (if so_npi s =? so_np s then 0 else so_npi s) + 1 in
  let s := set_npi npi s in
  if npi >? so_np s then Ret (0, [], s)
  else vs <- take (so_m s) (place p k s npi) (Z.to_nat (ncomp p k)) ;; Ret (1, vs, s).

(** [MMG3D_Set_scalarSols], [MMG3D_Set_vectorSols], [MMG3D_Set_tensorSols]; [u] is
    the array of the user. *)
Definition set_all (p : prog) (k : kind) (s : sol) (u : arr V) : outcome (Z * sol) :=
  if so_np s =? 0 then Ret (0, s)
  else
    m <- for_range 1 (so_np s) (fun pos m =>
           vs <- take u (ncomp p k * (pos - 1)) (Z.to_nat (ncomp p k)) ;;
           put m (place_all p k pos) vs) (so_m s) ;;
    Ret (1, set_m m s).

(** [MMG3D_Get_scalarSols], [MMG3D_Get_vectorSols], [MMG3D_Get_tensorSols]. *)
Definition get_all (p : prog) (k : kind) (s : sol) : outcome (Z * list V * sol) :=
  l <- for_range 1 (so_np s) (fun pos l =>
         vs <- take (so_m s) (place_all p k pos) (Z.to_nat (ncomp p k)) ;; Ret (l ++ vs)) [] ;;
  Ret (1, l, s).

(** [MMG3D_Set_ithSol_inSolsAtVertices] (API_functions_3d.c:1754-1779) on the
    field [psl]: the values returned by the setters of vectors and tensors are
    dropped. *)
Definition set_typed (p : prog) (s : sol) (vs : list V) (pos : Z) : outcome (Z * sol) :=
  match kind_of (so_type s) with
  | None => Ret (0, s)
  | Some Scalar => set_one p Scalar s vs pos
  | Some k => '(_, s) <- set_one p k s vs pos ;; Ret (1, s)
  end.

(** [MMG3D_Get_ithSol_inSolsAtVertices] (:1781-1809). *)
Definition get_typed (p : prog) (s : sol) (pos : Z) : outcome (Z * list V * sol) :=
  let s := set_npi (pos - 1) s in
  match kind_of (so_type s) with
  | None => Ret (0, [], s)
  | Some Scalar => get_one p Scalar s
  | Some k => '(_, vs, s) <- get_one p k s ;; Ret (1, vs, s)
  end.

(** [MMG3D_Set_ithSols_inSolsAtVertices] (:1811-1837). *)
Definition set_typed_all (p : prog) (s : sol) (u : arr V) : outcome (Z * sol) :=
  match kind_of (so_type s) with
  | None => Ret (0, s)
  | Some Scalar => set_all p Scalar s u
  | Some k => '(_, s) <- set_all p k s u ;; Ret (1, s)
  end.

(** [MMG3D_Get_ithSols_inSolsAtVertices] (:1839-1865). *)
Definition get_typed_all (p : prog) (s : sol) : outcome (Z * list V * sol) :=
  match kind_of (so_type s) with
  | None => Ret (0, [], s)
  | Some k => get_all p k s
  end.

(** The value at a vertex for the rest of the program: the displacements
    (/repo/src/mmg3d/mmg3d3.c:574, /repo/src/mmg2d/mmg2d9.c:167), the metrics, the
    files (/repo/src/common/inout.c:2329, /repo/src/mmg2d/inout_2d.c:1558-1602). *)
Definition used_value (s : sol) (pos : Z) : outcome (list V) :=
  take (so_m s) (so_size s * pos) (Z.to_nat (so_size s)).

(** ** Calls on the fields of an array of solutions *)

Inductive call : Type :=
| Size (mmax typEntity np typSol : Z) (grant : bool)
| SetOne (k : kind) (vs : list V) (pos : Z)
| GetOne (k : kind)
| SetAll (k : kind) (u : arr V)
| GetAll (k : kind)
| SetTyped (vs : list V) (pos : Z)
| GetTyped (pos : Z)
| SetTypedAll (u : arr V)
| GetTypedAll.

Definition quiet (x : Z * sol) : Z * list V * sol := let '(r, s) := x in (r, [], s).

Definition do_call (p : prog) (c : call) (s : sol) : outcome (Z * list V * sol) :=
  match c with
  | Size mmax e np t g => Ret (quiet (set_size p mmax e np t g s))
  | SetOne k vs pos => x <- set_one p k s vs pos ;; Ret (quiet x)
  | GetOne k => get_one p k s
  | SetAll k u => x <- set_all p k s u ;; Ret (quiet x)
  | GetAll k => get_all p k s
  | SetTyped vs pos => x <- set_typed p s vs pos ;; Ret (quiet x)
  | GetTyped pos => get_typed p s pos
  | SetTypedAll u => x <- set_typed_all p s u ;; Ret (quiet x)
  | GetTypedAll => get_typed_all p s
  end.

(** A history of calls, each on the field number [i], from 1 ([psl = sol + (i-1)]). *)
Fixpoint do_calls (p : prog) (cs : list (Z * call)) (sols : arr sol) : outcome (list (Z * list V) * arr sol) :=
  match cs with
  | [] => Ret ([], sols)
  | (i, c) :: cs =>
      s <- rd sols (i - 1) ;;
      '(r, vs, s) <- do_call p c s ;;
      sols <- wr sols (i - 1) s ;;
      '(rs, sols) <- do_calls p cs sols ;;
      Ret ((r, vs) :: rs, sols)
  end.

End SolApi.

Arguments mkSol {V} so_np so_npi so_npmax so_size so_type so_m.
Arguments Size {V}.
Arguments SetOne {V}.
Arguments GetOne {V}.
Arguments SetAll {V}.
Arguments GetAll {V}.
Arguments SetTyped {V}.
Arguments GetTyped {V}.
Arguments SetTypedAll {V}.
Arguments GetTypedAll {V}.
