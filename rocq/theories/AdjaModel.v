(** Model of the construction of the tetrahedra adjacency,
    src/mmg3d/hash_3d.c:122-227 ([MMG3D_hashTetra]). *)
From Coq Require Import ZArith List Bool.
From Verif Require Import CBase MeshModel HashModel.
Import ListNotations.
Open Scope Z_scope.

(** Face [i] of a tetrahedron: smallest, largest and sum of its vertices
    (hash_3d.c:169-175 and 192-197). *)
Definition fa (t : tetra) (i : Z) : Z := tv t (idir i 0).
Definition fb (t : tetra) (i : Z) : Z := tv t (idir i 1).
Definition fc (t : tetra) (i : Z) : Z := tv t (idir i 2).
Definition fmin t i := min3 (fa t i) (fb t i) (fc t i).
Definition fmax t i := max3 (fa t i) (fb t i) (fc t i).
Definition fsum t i := fa t i + fb t i + fc t i.

(** hash_3d.c:176; [MMG5_KA,KB,KC] = 7,11,13. *)
Definition tkey (hsize mins maxs sum : Z) : outcome Z :=
  if hsize =? 0 then Stuck else Ret (Z.rem (7 * mins + 11 * maxs + 13 * sum) hsize + 1).

(** Stage 1, hash_3d.c:163-182. State: (iadr, link, hcode). *)
Definition stage1 (ne : Z) (tet : arr tetra) (link hcode : arr Z) : outcome (Z * arr Z * arr Z) :=
  for_range 1 ne (fun k st =>
    t <- rd tet k ;;
    if eok t then
      for_range 0 3 (fun i st2 =>
        let '(iadr, link, hcode) := st2 in
        key <- tkey ne (fmin t i) (fmax t i) (fsum t i) ;;
        let iadr' := iadr + 1 in
        h <- rd hcode key ;;
        link' <- wr link iadr' h ;;
        hcode' <- wr hcode key (- iadr') ;;
        Ret (iadr', link', hcode')) st
    else Ret st) (0, link, hcode).

(** hash_3d.c:202-222: the [while] loop of stage 2 started at [ll] with
    predecessor [pp]; [l] is the face being treated. *)
Fixpoint seek (fuel : nat) (inival : Z) (tet : arr tetra) (link : arr Z)
         (l k i mins maxs sum ll pp : Z) : outcome (arr Z) :=
  match fuel with
  | O => Stuck
  | S f =>
    if ll =? inival then Ret link
    else
      let kk := Z.quot (ll - 1) 4 + 1 in
      let ii := Z.rem (ll - 1) 4 in
      t1 <- rd tet kk ;;
      if (fsum t1 ii =? sum) && (fmin t1 ii =? mins) && (fmax t1 ii =? maxs) then
        link1 <- (if pp =? 0 then Ret link else x <- rd link ll ;; wr link pp x) ;;
        link2 <- wr link1 l (4 * kk + ii) ;;
        wr link2 ll (4 * k + i)
      else
        x <- rd link ll ;;
        seek f inival tet link l k i mins maxs sum (- x) ll
  end.

(** Stage 2, hash_3d.c:184-224. *)
Definition stage2 (inival iadr : Z) (tet : arr tetra) (link : arr Z) : outcome (arr Z) :=
  for_down iadr 0 (fun l link =>
    x <- rd link l ;;
    if 0 <=? x then Ret link
    else
      let k := Z.quot (l - 1) 4 + 1 in
      let i := Z.rem (l - 1) 4 in
      t <- rd tet k ;;
      link1 <- wr link l 0 ;;
      seek (S (Z.to_nat l)) inival tet link1 l k i (fmin t i) (fmax t i) (fsum t i) (- x) 0) link.

(** [MMG3D_hashTetra] with [pack=0] on a mesh without adjacency (packing is
    modelled separately); [inival] is [MMG5_INTMAX].  Simplification: the two
    allocations succeed. *)
Definition hashTetra (inival ne nemax : Z) (tet : arr tetra) : outcome (arr Z) :=
  hcode <- for_range 0 ne (fun k h => wr h k (- inival)) (acalloc (ne + 5) 0) ;;
  '(iadr, link, _) <- stage1 ne tet (acalloc (4 * nemax + 5) 0) hcode ;;
  stage2 inival iadr tet link.
