(** Specification of the slot allocators: a map from indices to contents. *)
From Coq Require Import ZArith List Bool.
From Verif Require Import CBase MeshModel PoolModel.
Import ListNotations.
Open Scope Z_scope.

(** ** Vertices *)

(** What the client sees of a vertex: coordinates, reference, flag, tag. *)
Definition vdata := (Z * Z * Z * Z)%type.
Definition seen (p : point) : vdata := (pc p, pref p, pflag p, ptag p).

(** A slot is free, in use, or was abandoned by a creation that failed half-way. *)
Inductive cell := Free | Used (d : vdata) | Lost.

(** [acell]: slots; [amax]: allocated size; [alost]: some slot was lost. *)
Record vspec := mkVS { acell : Z -> cell; amax : Z; alost : bool }.

Inductive vop :=
| PNew (c tag : Z) (grow : option Z)                     (* create, no growth of the vertex array *)
| PNewR (c tag g1 : Z) (gap : option Z) (g2 : Z)         (* create, growing the vertex array if needed *)
| PDel (i : Z)
| PSet (i c ref tmp flag tag : Z).

(** Outcome of an operation: the value returned and, for bookkeeping, the slot
    that was at the head of the free list. *)
Definition vstep (s : vpool) (o : vop) : outcome (Z * Z * vpool) :=
  match o with
  | PNew c tag grow => '(r, s') <- newPt s c tag grow ;; Ret (r, vnil s, s')
  | PNewR c tag g1 gap g2 => '(r, s') <- newPtR s c tag (Some g1) gap (Some g2) true ;; Ret (r, vnil s, s')
  | PDel i => s' <- delPt s i ;; Ret (0, 0, s')
  | PSet i c ref tmp flag tag => s' <- setPt s i c ref tmp flag tag ;; Ret (0, 0, s')
  end.

Definition tag_ok (tag : Z) : Prop := 0 <= tag < MG_NUL.
Definition is_bdy (tag : Z) : bool := negb (Z.land tag MG_BDY =? 0).

(** Allowed calls.  After a creation failed half-way ([alost]) the caller is
    expected to stop asking for boundary vertices that can be granted and for
    growth; see the counter-examples in PropsPool.v. *)
Definition vok_op (st : vspec) (o : vop) : Prop :=
  match o with
  | PNew c tag grow => tag_ok tag /\ (forall g, grow = Some g -> 0 < g) /\
      (alost st = true -> is_bdy tag = false \/ grow = None)
  | PNewR c tag g1 gap g2 => tag_ok tag /\ 0 < g1 /\ 0 < g2 /\ (forall g, gap = Some g -> 0 < g) /\ alost st = false
  | PDel i => exists d, acell st i = Used d
  | PSet i c ref tmp flag tag => (exists d, acell st i = Used d) /\ tag_ok tag
  end.

Definition full (st : vspec) : Prop := forall k, 1 <= k < amax st -> acell st k <> Free.

(** New abstract state. *)
Definition put (st : vspec) (i : Z) (c : cell) (mx : Z) (l : bool) : vspec :=
  mkVS (upd (acell st) i c) mx l.
Definition vnext (st : vspec) (o : vop) (r slot : Z) (mx : Z) : vspec :=
  match o with
  | PNew c tag grow =>
      if r =? 0 then (if slot =? 0 then st else put st slot Lost (amax st) true)
      else put st r (Used (c, 0, 0, tag)) (amax st) (alost st)
  | PNewR c tag _ _ _ => if r =? 0 then st else put st r (Used (c, 0, 0, tag)) mx (alost st)
  | PDel i => put st i Free (amax st) (alost st)
  | PSet i c ref tmp flag tag => put st i (Used (c, ref, flag, tag)) (amax st) (alost st)
  end.

(** What an operation may answer. *)
Definition vfits (st : vspec) (o : vop) (r slot mx : Z) : Prop :=
  match o with
  | PNew c tag grow =>
      (r <> 0 /\ 1 <= r <= amax st /\ acell st r = Free) \/
      (r = 0 /\ slot = 0 /\ full st) \/
      (r = 0 /\ is_bdy tag = true /\ grow = None /\ 1 <= slot <= amax st /\ acell st slot = Free)
  | PNewR c tag _ gap _ =>
      (r <> 0 /\ mx = amax st /\ 1 <= r <= amax st /\ acell st r = Free) \/
      (exists g, gap = Some g /\ mx = amax st + g /\ full st /\ 1 <= r <= mx /\ acell st r = Free) \/
      (r = 0 /\ mx = amax st /\ gap = None /\ full st)
  | _ => True
  end.

(** The mesh shows exactly the abstract state. *)
Record vsees (s : vpool) (st : vspec) : Prop := {
  see_max : vmax s = amax st /\ alen (vpt s) = amax st + 1 /\ 0 <= vnp s <= amax st;
  see_used : forall i d, acell st i = Used d -> 1 <= i <= vnp s /\ seen (aget (vpt s) i) = d /\ vok (aget (vpt s) i) = true;
  see_free : forall i, 1 <= i <= vnp s -> acell st i = Free -> vok (aget (vpt s) i) = false
}.

(** Reachable pairs. *)
Inductive vreach : vpool -> vspec -> Prop :=
| vreach0 np npmax xpmax s :
    0 <= np < npmax -> 0 <= xpmax -> alloc_pts np npmax xpmax = Ret s ->
    vreach s (mkVS (fun k => if (1 <=? k) && (k <=? np) then Used (0, 0, 0, 0) else Free) npmax false)
| vreach1 s st o r slot s' :
    vreach s st -> vok_op st o -> vstep s o = Ret (r, slot, s') -> vreach s' (vnext st o r slot (vmax s')).

(** ** Tetrahedra *)

Record espec := mkES { ecell : Z -> option tetra; esmax : Z; esadj : option (Z -> Z) }.

Inductive eop :=
| TNew (mark : Z) (t : tetra) (gap : option Z)
| TDel (i : Z)
| TSet (i : Z) (t : tetra)
| TAdj (a : option (arr Z)).       (* (re)build or release the adjacency table *)

Definition estep (s : epool) (o : eop) : outcome (Z * epool) :=
  match o with
  | TNew mark t gap => newEltR mark s t gap true
  | TDel i => delElt s i
  | TSet i t => s' <- setElt s i t ;; Ret (0, s')
  | TAdj a => Ret (0, mkE (ene s) (enil s) (emax s) (etet s) a)
  end.

Definition efull (st : espec) : Prop := forall k, 1 <= k < esmax st -> ecell st k <> None.

Definition eok_op (st : espec) (o : eop) : Prop :=
  match o with
  | TNew mark t gap => 0 < v0 t /\ forall g, gap = Some g -> 0 < g
  | TDel i => 1 <= i <= esmax st
  | TSet i t => ecell st i <> None /\ 0 < v0 t
  | TAdj a => forall x, a = Some x -> alen x = 4 * esmax st + 5
  end.

(** The four entries of element [i]. *)
Definition in_rows (i k : Z) : bool := (4 * (i - 1) + 1 <=? k) && (k <=? 4 * (i - 1) + 4).

Definition enext (st : espec) (o : eop) (r mx : Z) : espec :=
  match o with
  | TNew mark t gap =>
      if r =? 0 then st
      else mkES (upd (ecell st) r (Some t)) mx
             (match esadj st with None => None | Some f => Some (fun k => if k <? 4 * esmax st + 5 then f k else 0) end)
  | TDel i => if r =? 0 then st
              else mkES (upd (ecell st) i None) (esmax st)
                     (match esadj st with None => None | Some f => Some (fun k => if in_rows i k then 0 else f k) end)
  | TSet i t => mkES (upd (ecell st) i (Some t)) (esmax st) (esadj st)
  | TAdj a => mkES (ecell st) (esmax st) (match a with None => None | Some x => Some (aget x) end)
  end.

Definition efits (st : espec) (o : eop) (r mx : Z) : Prop :=
  match o with
  | TNew mark t gap =>
      (r <> 0 /\ mx = esmax st /\ 1 <= r <= esmax st /\ ecell st r = None) \/
      (exists g, gap = Some g /\ mx = esmax st + g /\ efull st /\ 1 <= r <= mx /\ ecell st r = None) \/
      (r = 0 /\ mx = esmax st /\ gap = None /\ efull st)
  | TDel i => (r = 1 /\ ecell st i <> None) \/ (r = 0 /\ ecell st i = None)
  | _ => True
  end.

Record esees (s : epool) (st : espec) : Prop := {
  ese_max : emax s = esmax st /\ alen (etet s) = esmax st + 1 /\ 0 <= ene s <= esmax st;
  ese_used : forall i t, ecell st i = Some t -> 1 <= i <= ene s /\ aget (etet s) i = t /\ eok t = true;
  ese_free : forall i, 1 <= i <= ene s -> ecell st i = None -> eok (aget (etet s) i) = false;
  ese_adj : match eadj s, esadj st with
            | None, None => True
            | Some a, Some f => alen a = 4 * esmax st + 5 /\ forall k, 0 <= k < alen a -> aget a k = f k
            | _, _ => False
            end
}.

(** Contents after packing. *)
Definition cells_of (s : epool) : Z -> option tetra :=
  fun k => if (1 <=? k) && (k <=? ene s) then Some (aget (etet s) k) else None.

Inductive ereach : epool -> espec -> Prop :=
| ereach0 ne nemax f s0 s :
    0 <= ne < nemax -> (forall k, 1 <= k <= ne -> 0 < v0 (f k)) ->
    alloc_tets ne nemax = Ret s0 -> load_tets s0 f = Ret s ->
    ereach s (mkES (fun k => if (1 <=? k) && (k <=? ne) then Some (f k) else None) nemax None)
| ereach1 s st o r s' :
    ereach s st -> eok_op st o -> estep s o = Ret (r, s') -> ereach s' (enext st o r (emax s'))
| ereach_pak s st s' :
    ereach s st -> eadj s = None -> 1 <= ene s -> paktet s = Ret (1, s') ->
    ereach s' (mkES (cells_of s') (esmax st) None).
