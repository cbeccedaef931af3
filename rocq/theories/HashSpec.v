(** Specification of the hash tables: plain finite maps keyed by unordered pairs
    or triples.  Nothing here depends on the layout of the tables. *)
From Coq Require Import ZArith List Bool.
Import ListNotations.
Open Scope Z_scope.

(** ** Edge map *)

(** same unordered pair *)
Definition same_edge (a b x y : Z) : bool :=
  ((a =? x) && (b =? y)) || ((a =? y) && (b =? x)).

Definition emap := Z -> Z -> option Z.
Definition emap0 : emap := fun _ _ => None.
Definition eput (M : emap) (a b k : Z) : emap := fun x y => if same_edge a b x y then Some k else M x y.
Definition edel (M : emap) (a b : Z) : emap := fun x y => if same_edge a b x y then None else M x y.

(** A history of calls.  [g] is the growth granted by the memory manager if the
    call needs one (a value below 1 is a refusal). *)
Inductive eop :=
| EIns (a b k g : Z)   (** insert, keeping an existing value *)
| EUpd (a b k : Z)     (** overwrite an existing value *)
| ETag (a b t g : Z)   (** insert, or bitwise-or into the existing value *)
| EGet (a b : Z)
| EPop (a b : Z).

Definition eop_wf (o : eop) : Prop :=
  match o with
  | EIns a b _ _ | EUpd a b _ | ETag a b _ _ | EGet a b | EPop a b => 0 < a /\ 0 < b
  end.

(** Returned value and new map. *)
Definition espec (M : emap) (o : eop) : Z * emap :=
  match o with
  | EIns a b k _ => match M a b with Some _ => (1, M) | None => (2, eput M a b k) end
  | EUpd a b k => match M a b with Some _ => (1, eput M a b k) | None => (0, M) end
  | ETag a b t _ =>
      match M a b with
      | Some v => (Z.lor v t, eput M a b (Z.lor v t))
      | None => (t, eput M a b t)
      end
  | EGet a b => match M a b with Some v => (v, M) | None => (0, M) end
  | EPop a b => match M a b with Some _ => (1, edel M a b) | None => (0, M) end
  end.

(** The call had to enlarge the table and the growth was refused. *)
Definition erefused (M : emap) (o : eop) : Prop :=
  match o with
  | EIns a b _ g | ETag a b _ g => g < 1 /\ M a b = None
  | _ => False
  end.

(** The observed results are those of the map; a refused growth yields 0 and
    ends the history. *)
Fixpoint econforms (M : emap) (ops : list eop) (outs : list Z) : Prop :=
  match ops, outs with
  | [], [] => True
  | o :: r, v :: vs =>
      (v = fst (espec M o) /\ econforms (snd (espec M o)) r vs)
      \/ (erefused M o /\ v = 0 /\ vs = [])
  | _, _ => False
  end.

Fixpoint espec_outs (M : emap) (ops : list eop) : list Z :=
  match ops with
  | [] => []
  | o :: r => fst (espec M o) :: espec_outs (snd (espec M o)) r
  end.

Definition egranted (o : eop) : Prop :=
  match o with EIns _ _ _ g | ETag _ _ _ g => 1 <= g | _ => True end.

Lemma econforms_granted : forall ops M outs,
  Forall egranted ops -> econforms M ops outs -> outs = espec_outs M ops.
Proof.
  induction ops as [|o r IH]; intros M [|v vs] Hg H; simpl in H; try contradiction; [reflexivity|].
  inversion Hg as [|? ? Ho Hr]; subst.
  destruct H as [[E H]|[R _]].
  - simpl. subst v. f_equal. apply IH; assumption.
  - exfalso. destruct o; simpl in *; try contradiction;
      destruct R as [R _]; exact (Z.lt_irrefl _ (Z.lt_le_trans _ _ _ R Ho)).
Qed.

(** ** Face map *)

(** same unordered triple *)
Definition same_face (a b c x y z : Z) : bool :=
  ((a =? x) && (b =? y) && (c =? z)) || ((a =? x) && (b =? z) && (c =? y)) ||
  ((a =? y) && (b =? x) && (c =? z)) || ((a =? y) && (b =? z) && (c =? x)) ||
  ((a =? z) && (b =? x) && (c =? y)) || ((a =? z) && (b =? y) && (c =? x)).

Definition fmap := Z -> Z -> Z -> option Z.
Definition fmap0 : fmap := fun _ _ _ => None.
Definition fput (M : fmap) (a b c k : Z) : fmap :=
  fun x y z => if same_face a b c x y z then Some k else M x y z.

Inductive fop :=
| FIns (a b c k g : Z)
| FGet (a b c : Z).

Definition fop_wf (o : fop) : Prop :=
  match o with FIns a b c _ _ | FGet a b c => 0 < a /\ 0 < b /\ 0 < c end.

Definition fspec (M : fmap) (o : fop) : Z * fmap :=
  match o with
  | FIns a b c k _ => match M a b c with Some v => (v, M) | None => (-1, fput M a b c k) end
  | FGet a b c => match M a b c with Some v => (v, M) | None => (0, M) end
  end.

Definition frefused (M : fmap) (o : fop) : Prop :=
  match o with FIns a b c _ g => g < 1 /\ M a b c = None | _ => False end.

Fixpoint fconforms (M : fmap) (ops : list fop) (outs : list Z) : Prop :=
  match ops, outs with
  | [], [] => True
  | o :: r, v :: vs =>
      (v = fst (fspec M o) /\ fconforms (snd (fspec M o)) r vs)
      \/ (frefused M o /\ v = 0 /\ vs = [])
  | _, _ => False
  end.

(** ** Geometric edge map: payload (reference, tag) *)

Definition gmap := Z -> Z -> option (Z * Z).
Definition gmap0 : gmap := fun _ _ => None.
Definition gput (M : gmap) (a b : Z) (v : Z * Z) : gmap := fun x y => if same_edge a b x y then Some v else M x y.
Definition gdel (M : gmap) (a b : Z) : gmap := fun x y => if same_edge a b x y then None else M x y.

Inductive gop :=
| GIns (a b ref tag g : Z)   (** insert, silently keeping an existing entry *)
| GTag (a b ref tag : Z)     (** or the tag, replace the reference if [ref] is not 0 *)
| GGet (a b : Z)
| GPop (a b : Z).

Definition gop_wf (o : gop) : Prop :=
  match o with GIns a b _ _ _ | GTag a b _ _ | GGet a b | GPop a b => 0 < a /\ 0 < b end.

(** Result: (return value, ref, tag); ref and tag are 0 for calls without such outputs. *)
Definition gspec (M : gmap) (o : gop) : (Z * Z * Z) * gmap :=
  match o with
  | GIns a b r t _ => match M a b with Some _ => ((1, 0, 0), M) | None => ((1, 0, 0), gput M a b (r, t)) end
  | GTag a b r t =>
      match M a b with
      | Some (r0, t0) => ((1, 0, 0), gput M a b (if r =? 0 then r0 else r, Z.lor t0 t))
      | None => ((0, 0, 0), M)
      end
  | GGet a b => match M a b with Some (r, t) => ((1, r, t), M) | None => ((0, 0, 0), M) end
  | GPop a b => match M a b with Some (r, t) => ((1, r, t), gdel M a b) | None => ((0, 0, 0), M) end
  end.

Definition grefused (M : gmap) (o : gop) : Prop :=
  match o with GIns a b _ _ g => g < 1 /\ M a b = None | _ => False end.

Fixpoint gconforms (M : gmap) (ops : list gop) (outs : list (Z * Z * Z)) : Prop :=
  match ops, outs with
  | [], [] => True
  | o :: r, v :: vs =>
      (v = fst (gspec M o) /\ gconforms (snd (gspec M o)) r vs)
      \/ (grefused M o /\ v = (0, 0, 0) /\ vs = [])
  | _, _ => False
  end.
