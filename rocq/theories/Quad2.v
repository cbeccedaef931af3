(** The quadrilaterals of Mmg2d: step 1 of [MMG2D_hashQuad]
    (/repo/src/mmg2d/hash_2d.c:151-275), the adjacencies between quadrilaterals.

    Step 2 (hash_2d.c:277-322, the neighbours that are triangles) is in
    QuadTria2.v.  Not modelled: the failure of the allocations, a table that exists already. *)
From Coq Require Import ZArith List Bool Lia.
From Verif Require Import CBase SurfModel.
Import ListNotations.
Open Scope Z_scope.

(** A quadrilateral ([MMG5_Quad], libmmgtypes.h): its vertices. *)
Record quad : Type := mkQd { q_v : Z -> Z }.

(** [MMG2D_idir_q], libmmg2d_private.h:73: {0,1},{0,3},{1,2},{2,3}. *)
Definition qa (i : Z) : Z := if i =? 0 then 0 else if i =? 1 then 0 else if i =? 2 then 1 else 2.
Definition qb (i : Z) : Z := if i =? 0 then 1 else if i =? 1 then 3 else if i =? 2 then 2 else 3.

(** Ends of the edge [i] (hash_2d.c:201-210, 231-242, 251-262). *)
Definition qmin (t : quad) (i : Z) : Z := Z.min (q_v t (qa i)) (q_v t (qb i)).
Definition qmax (t : quad) (i : Z) : Z := Z.max (q_v t (qa i)) (q_v t (qb i)).

(** hash_2d.c:213; [KTA], [KTB] are 7 and 11. *)
Definition qkey (hsize mins maxs : Z) : outcome Z :=
  if hsize =? 0 then Stuck else Ret (Z.rem (7 * mins + 11 * maxs) hsize + 1).

(** The hash table (hash_2d.c:190-220).  State: (link, hcode, iadr); [iadr]
    counts the edges put in the table. *)
Definition firstq (nq : Z) (a : arr quad) (link hcode : arr Z) : outcome (arr Z * arr Z * Z) :=
  for_range 1 nq (fun k st =>
    t <- rd a k ;;
    if 0 <? q_v t 0 then
      for_range 0 3 (fun i st2 =>
        let '(link, hcode, iadr) := st2 in
        key <- qkey nq (qmin t i) (qmax t i) ;;
        h <- rd hcode key ;;
        link' <- wr link (iadr + 1) h ;;
        hcode' <- wr hcode key (- (iadr + 1)) ;;
        Ret (link', hcode', iadr + 1)) st
    else Ret st) (link, hcode, 0).

(** The [while] loop (hash_2d.c:248-273). *)
Fixpoint seekq (fuel : nat) (inival : Z) (a : arr quad) (link : arr Z)
         (l k i mins maxs ll pp : Z) : outcome (arr Z) :=
  match fuel with
  | O => Stuck
  | S f =>
    if ll =? inival then Ret link
    else
      let kk := Z.quot (ll - 1) 4 + 1 in
      let ii := Z.rem (ll - 1) 4 in
      t1 <- rd a kk ;;
      if (qmin t1 ii =? mins) && (qmax t1 ii =? maxs) then
        link1 <- (if pp =? 0 then Ret link else x <- rd link ll ;; wr link pp x) ;;
        link2 <- wr link1 l (4 * kk + ii) ;;
        wr link2 ll (4 * k + i)
      else
        x <- rd link ll ;;
        seekq f inival a link l k i mins maxs (- x) ll
  end.

(** The adjacents (hash_2d.c:225-274), from the last edge counted. *)
Definition secondq (inival iadr : Z) (a : arr quad) (link : arr Z) : outcome (arr Z) :=
  for_down iadr 0 (fun l link =>
    x <- rd link l ;;
    if 0 <=? x then Ret link
    else
      let k := Z.quot (l - 1) 4 + 1 in
      let i := Z.rem (l - 1) 4 in
      t <- rd a k ;;
      link1 <- wr link l 0 ;;
      seekq (S (Z.to_nat l)) inival a link1 l k i (qmin t i) (qmax t i) (- x) 0) link.

(** Step 1 of [MMG2D_hashQuad] on a mesh with quadrilaterals; [inival] is
    [MMG5_INTMAX]. *)
Definition hashq (inival nq : Z) (a : arr quad) : outcome (arr Z) :=
  hcode <- for_range 0 nq (fun k h => wr h k (- inival)) (acalloc (nq + 5) 0) ;;
  '(link, _, iadr) <- firstq nq a (acalloc (4 * nq + 5) 0) hcode ;;
  secondq inival iadr a link.
