(** What a user of the API expects of a history of setting calls, without
    arrays, cursors or tag bits. *)
From Coq Require Import ZArith Reals List Bool.
From Verif Require Import CBase KerModel ApiModel.
Import ListNotations.
Open Scope Z_scope.

(** For each vertex: coordinates, reference, corner, required; for each
    element: vertices, reference, required, ridge. *)
Record view := mkW {
  w_c : Z -> vec3; w_ref : Z -> Z; w_crn : Z -> bool; w_req : Z -> bool;
  we_v : kind -> Z -> list Z; we_ref : kind -> Z -> Z; we_req : kind -> Z -> bool; we_rid : kind -> Z -> bool }.

(** The view of a new mesh. *)
Definition view0 : view :=
  mkW (fun _ => V3 0 0 0) (fun _ => 0) (fun _ => false) (fun _ => false)
      (fun k _ => repeat 0 (nv k)) (fun _ _ => 0) (fun _ _ => false) (fun _ _ => false).

(** Six times the oriented volume: triple product of the edge vectors. *)
Definition vol6 (c : Z -> vec3) (vs : list Z) : R :=
  let p i := c (nth i vs 0) in
  let d i f := (f (p i) - f (p 0%nat))%R in
  (d 1%nat vx * (d 2%nat vy * d 3%nat vz - d 2%nat vz * d 3%nat vy)
   - d 1%nat vy * (d 2%nat vx * d 3%nat vz - d 2%nat vz * d 3%nat vx)
   + d 1%nat vz * (d 2%nat vx * d 3%nat vy - d 2%nat vy * d 3%nat vx))%R.

Definition flat_tet (c : Z -> vec3) (vs : list Z) : bool := negb (ltb EPSD2 (Rabs (vol6 c vs))).

(** The documented reorientation of a tetrahedron. *)
Definition oriented (c : Z -> vec3) (vs : list Z) : list Z :=
  match vs with
  | [a0; a1; a2; a3] => if negb (flat_tet c vs) && ltb (vol6 c vs) 0 then [a0; a1; a3; a2] else vs
  | _ => vs
  end.

Definition interval (lo n : Z) : list Z := map (fun i => lo + Z.of_nat i) (seq 0 (Z.to_nat n)).

(** Replacement of the value of some indices, of one kind. *)
Definition pick {A} (sel : Z -> bool) (f g : Z -> A) : Z -> A := fun i => if sel i then f i else g i.
Definition pickk {A} (k : kind) (sel : Z -> bool) (f : Z -> A) (g : kind -> Z -> A) : kind -> Z -> A :=
  fun k' i => if kind_eqb k' k then pick sel f (g k') i else g k' i.

Definition set_v (sel : Z -> bool) (c : Z -> vec3) (r : Z -> Z) (w : view) : view :=
  mkW (pick sel c (w_c w)) (pick sel r (w_ref w)) (pick sel (fun _ => false) (w_crn w)) (pick sel (fun _ => false) (w_req w))
      (we_v w) (we_ref w) (we_req w) (we_rid w).
Definition set_e (k : kind) (sel : Z -> bool) (v : Z -> list Z) (r : Z -> Z) (w : view) : view :=
  mkW (w_c w) (w_ref w) (w_crn w) (w_req w) (pickk k sel v (we_v w)) (pickk k sel r (we_ref w)) (we_req w) (we_rid w).

(** Element [i] of a user array. *)
Definition row (k : kind) (flat : arr Z) (i : Z) : list Z :=
  map (fun j => aget flat ((i - 1) * Z.of_nat (nv k) + Z.of_nat j)) (seq 0 (nv k)).
Definition given {A} (refs : option (arr A)) (old : Z -> A) (i : Z) : A :=
  match refs with None => old i | Some a => aget a (i - 1) end.

Definition mark_view (q : mark) (sel : Z -> bool) (on : bool) (w : view) : view :=
  match q with
  | MReqTet | MReqTri | MReqEdg =>
      mkW (w_c w) (w_ref w) (w_crn w) (w_req w) (we_v w) (we_ref w)
          (pickk (mark_kind q) sel (fun _ => on) (we_req w)) (we_rid w)
  | MRidge =>
      mkW (w_c w) (w_ref w) (w_crn w) (w_req w) (we_v w) (we_ref w)
          (we_req w) (pickk KEdg sel (fun _ => on) (we_rid w))
  | MParTri => w
  end.

(** Return value and effect of one call on a mesh with [np] vertices and
    [cnt k] elements of kind [k]. *)
Definition expect (np : Z) (cnt : kind -> Z) (c : call) (w : view) : Z * view :=
  match c with
  | CVertex c r pos =>
      if pos <=? np then (1, set_v (Z.eqb pos) (fun _ => c) (fun _ => r) w) else (0, w)
  | CVertices vs refs =>
      (1, set_v (fun _ => true)
            (fun i => V3 (aget vs (3 * (i - 1))) (aget vs (3 * (i - 1) + 1)) (aget vs (3 * (i - 1) + 2)))
            (given refs (w_ref w)) w)
  | CElt k vs r pos =>
      if cnt k <? pos then (0, w)
      else match k with
           | KTet => (b2z (negb (flat_tet (w_c w) vs)),
                      set_e KTet (Z.eqb pos) (fun _ => oriented (w_c w) vs) (fun _ => Z.abs r) w)
           | _ => (1, set_e k (Z.eqb pos) (fun _ => vs) (fun _ => r) w)
           end
  | CElts KTet flat refs =>
      (* the call stops at the first flat tetrahedron, which is stored *)
      let ok i := forallb (fun j => negb (flat_tet (w_c w) (row KTet flat j))) (interval 1 i) in
      (b2z (ok (cnt KTet)),
       set_e KTet (fun i => ok (i - 1)) (fun i => oriented (w_c w) (row KTet flat i))
             (fun i => match refs with None => we_ref w KTet i | Some a => Z.abs (aget a (i - 1)) end) w)
  | CElts k flat refs => (1, set_e k (fun _ => true) (row k flat) (given refs (we_ref w k)) w)
  | CCorner pos on =>
      (1, mkW (w_c w) (w_ref w) (pick (Z.eqb pos) (fun _ => on) (w_crn w)) (w_req w) (we_v w) (we_ref w) (we_req w) (we_rid w))
  | CReqVertex pos on =>
      (1, mkW (w_c w) (w_ref w) (w_crn w) (pick (Z.eqb pos) (fun _ => on) (w_req w)) (we_v w) (we_ref w) (we_req w) (we_rid w))
  | CMark q pos on => (1, mark_view q (Z.eqb pos) on w)
  | CMarks q idx n on => (1, mark_view q (fun i => existsb (fun j => aget idx j =? i) (interval 0 n)) on w)
  end.

Fixpoint expects (np : Z) (cnt : kind -> Z) (h : list call) (w : view) : list Z * view :=
  match h with
  | [] => ([], w)
  | c :: h' => let '(r, w1) := expect np cnt c w in
               let '(rs, w2) := expects np cnt h' w1 in (r :: rs, w2)
  end.

(** Documented conditions on the arguments: positions start at one, user arrays
    are long enough, volume elements are made of vertices of the mesh, marked
    entities exist. *)
Definition ok_refs (refs : option (arr Z)) (n : Z) : Prop := match refs with None => True | Some a => n <= alen a end.
Definition vol_kind (k : kind) : bool := match k with KTet | KPri => true | _ => false end.
Definition ok_call (np : Z) (cnt : kind -> Z) (c : call) : Prop :=
  match c with
  | CVertex _ _ pos => 1 <= pos
  | CVertices vs refs => 3 * np <= alen vs /\ ok_refs refs np
  | CElt k vs _ pos => 1 <= pos /\ length vs = nv k /\ (vol_kind k = true -> Forall (fun v => 1 <= v <= np) vs)
  | CElts k flat refs =>
      cnt k * Z.of_nat (nv k) <= alen flat /\ ok_refs refs (cnt k) /\
      (vol_kind k = true -> forall j, 0 <= j < cnt k * Z.of_nat (nv k) -> 1 <= aget flat j <= np)
  | CCorner pos _ | CReqVertex pos _ => 1 <= pos <= np
  | CMark q pos _ => 1 <= pos <= cnt (mark_kind q)
  | CMarks q idx n _ => n <= alen idx /\ forall j, 0 <= j < n -> 1 <= aget idx j <= cnt (mark_kind q)
  end.
