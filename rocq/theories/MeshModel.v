(** Mesh entities shared by the models of mesh3d code. *)
From Coq Require Import ZArith List Bool.
From Verif Require Import CBase.
Import ListNotations.
Open Scope Z_scope.

(** [MMG5_Tetra], libmmgtypes.h:385-433.  Kept fields: the vertices, the
    reference, the index [xt] of the boundary data and [mark].  The other fields
    (quality, flag, tag) are gathered in one opaque number [tq]: the modelled
    functions only copy or clear them. *)
Record tetra := mkT { v0 : Z; v1 : Z; v2 : Z; v3 : Z; tref : Z; txt : Z; tmark : Z; tq : Z }.
Definition tetra0 : tetra := mkT 0 0 0 0 0 0 0 0.

Definition tv (t : tetra) (i : Z) : Z :=
  if i =? 0 then v0 t else if i =? 1 then v1 t else if i =? 2 then v2 t else v3 t.

Definition set_v3 (t : tetra) (x : Z) : tetra := mkT (v0 t) (v1 t) (v2 t) x (tref t) (txt t) (tmark t) (tq t).

(** [MG_EOK], mmgcommon_private.h:167 *)
Definition eok (t : tetra) : bool := 0 <? v0 t.

(** [MMG5_idir], libmmg3d_private.h:176: vertices of the face opposite to vertex [i]. *)
Definition idir (i j : Z) : Z :=
  nth (Z.to_nat j) (nth (Z.to_nat i) [[1;2;3];[0;3;2];[0;1;3];[0;2;1]] []) 0.
