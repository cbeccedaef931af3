(** Parts of a tetrahedron or triangle on each side of the level-set
    (mmg3d/mmg3d2.c, common/mmg2.c).  Doubles are rationals. *)
From Coq Require Import ZArith QArith Qabs List Bool.
From Verif Require Import CBase OctModel SplitModel.
Import ListNotations.
Open Scope Q_scope.

(** Coordinates of a vertex. *)
Record v3 := mkV { cx : Q; cy : Q; cz : Q }.

(** [MMG5_EPS], [MMG5_EPSD2], [MMG5_EPSOK], mmgcommon_private.h:95-97; [eps] of mmg3d2.c:117
    and mmg2.c:782. *)
Definition EPS : Q := 1 # (10 ^ 6).
Definition EPSD2 : Q := 1 # (10 ^ 200).
Definition EPSOK : Q := 1 # (10 ^ 15).
Definition eps : Q := EPS * EPS.

(** [MMG5_det3pt1vec] and [MMG5_det4pt], tools.c:920-940 *)
Definition det3pt1vec (c0 c1 c2 v : v3) : Q :=
  let m00 := cx c1 - cx c0 in let m01 := cx c2 - cx c0 in
  let m10 := cy c1 - cy c0 in let m11 := cy c2 - cy c0 in
  let m20 := cz c1 - cz c0 in let m21 := cz c2 - cz c0 in
  cx v * (m10 * m21 - m20 * m11) - cy v * (m00 * m21 - m20 * m01) + cz v * (m00 * m11 - m10 * m01).
Definition det4pt (c0 c1 c2 c3 : v3) : Q :=
  det3pt1vec c0 c1 c2 (mkV (cx c3 - cx c0) (cy c3 - cy c0) (cz c3 - cz c0)).

(** The point of the edge [i0],[i1] where the level-set vanishes, mmg3d2.c:66-79,203-206. *)
Definition cross (p : nat -> v3) (v : nat -> Q) (i0 i1 : nat) : v3 :=
  let lam := v i0 / (v i0 - v i1) in
  mkV (cx (p i0) + lam * (cx (p i1) - cx (p i0)))
      (cy (p i0) + lam * (cy (p i1) - cy (p i0)))
      (cz (p i0) + lam * (cz (p i1) - cz (p i0))).

(** Sorting of the vertices, mmg3d2.c:144-160 and mmg2.c:803-817. *)
Definition is_zero (x : Q) : bool := Qltb (Qabs x) eps.
Definition is_plus (x : Q) : bool := negb (is_zero x) && Qle_bool eps x.
Definition is_minus (x : Q) : bool := negb (is_zero x) && negb (Qle_bool eps x).

(** [MMG3D_vfrac_1vertex], mmg3d2.c:58-95 *)
Definition vfrac_1vertex (p : nat -> v3) (i0 : nat) (v : nat -> Q) (part_opp : bool) : Q :=
  let i1 := nth 0 (idir i0) 0%nat in
  let i2 := nth 1 (idir i0) 0%nat in
  let i3 := nth 2 (idir i0) 0%nat in
  let vfrac := Qabs (det4pt (p i0) (cross p v i0 i1) (cross p v i0 i2) (cross p v i0 i3)) in
  if negb part_opp then vfrac
  else Qabs (det4pt (p 0%nat) (p 1%nat) (p 2%nat) (p 3%nat)) - vfrac.

(** The edges cut by the level-set, mmg3d2.c:193-202. *)
Definition cut (v : nat -> Q) (ia : nat) : bool :=
  let '(i0, i1) := iare ia in
  if Qltb (Qabs (v i0)) EPSD2 || Qltb (Qabs (v i1)) EPSD2 then false
  else if Qltb 0 (v i0 * v i1) then false
  else true.
Definition flag (v : nat -> Q) : Z :=
  fold_right (fun ia f => (if cut v ia then 2 ^ Z.of_nat ia + f else f)%Z) 0%Z [0; 1; 2; 3; 4; 5]%nat.

(** [o], mmg3d2.c:186-207: zero for an edge that is not cut. *)
Definition inter (p : nat -> v3) (v : nat -> Q) (ia : nat) : v3 :=
  if cut v ia then let '(i0, i1) := iare ia in cross p v i0 i1 else mkV 0 0 0.

(** mmg3d2.c:212-228 *)
Definition config (f : Z) : (list nat * list nat) :=
  match f with
  | 45%Z => ([1; 3; 2; 0]%nat, permedge 5)
  | 51%Z => ([1; 2; 0; 3]%nat, permedge 4)
  | _ => ([0; 1; 2; 3]%nat, permedge 0)
  end.

(** The two sums, mmg3d2.c:255-258 and 262-265. *)
Definition part01 (p o : nat -> v3) (tau ed : list nat) : Q :=
  let t i := p (nth i tau 0%nat) in let e i := o (nth i ed 0%nat) in
  Qabs (det4pt (t 0%nat) (t 1%nat) (e 3%nat) (e 4%nat)) +
  Qabs (det4pt (t 0%nat) (e 4%nat) (e 3%nat) (e 2%nat)) +
  Qabs (det4pt (t 0%nat) (e 3%nat) (e 1%nat) (e 2%nat)).
Definition part23 (p o : nat -> v3) (tau ed : list nat) : Q :=
  let t i := p (nth i tau 0%nat) in let e i := o (nth i ed 0%nat) in
  Qabs (det4pt (e 2%nat) (e 4%nat) (t 2%nat) (t 3%nat)) +
  Qabs (det4pt (e 2%nat) (e 3%nat) (t 2%nat) (e 4%nat)) +
  Qabs (det4pt (e 1%nat) (e 3%nat) (t 2%nat) (e 2%nat)).

(** [MMG3D_vfrac], mmg3d2.c:107-302, with its assertions ([NDEBUG] not defined).  [p] and
    [v]: coordinates and values at the four vertices. *)
Definition vfrac3 (p : nat -> v3) (v : nat -> Q) (pm : Z) : outcome Q :=
  let ids := [0; 1; 2; 3]%nat in
  let zeros := filter (fun i => is_zero (v i)) ids in
  let plus := filter (fun i => is_plus (v i)) ids in
  let minus := filter (fun i => is_minus (v i)) ids in
  let vol := Qabs (det4pt (p 0%nat) (p 1%nat) (p 2%nat) (p 3%nat)) in
  if (length zeros =? 4)%nat then Ret 0
  else if (length minus =? 0)%nat then Ret (if (pm =? 1)%Z then vol else 0)
  else if (length plus =? 0)%nat then Ret (if (pm =? -1)%Z then vol else 0)
  else if (length minus =? 1)%nat then Ret (vfrac_1vertex p (hd 0%nat minus) v (negb (pm =? -1)%Z))
  else if (length plus =? 1)%nat then Ret (vfrac_1vertex p (hd 0%nat plus) v (negb (pm =? 1)%Z))
  else
    _ <- c_assert ((length plus =? 2)%nat && (length minus =? 2)%nat) ;;
    let f := flag v in
    _ <- c_assert ((f =? 30)%Z || (f =? 45)%Z || (f =? 51)%Z) ;;
    let '(tau, ed) := config f in
    let o := inter p v in
    let neg0 := Qltb (v (nth 0 tau 0%nat)) 0 in
    _ <- c_assert ((pm <? 0)%Z || (0 <? pm)%Z) ;;
    let cfg0 := if (pm <? 0)%Z then neg0 else negb neg0 in
    let vfp := part01 p o tau ed in
    let vfm := part23 p o tau ed in
    _ <- c_assert (Qltb (Qabs (vol - (vfp + vfm))) EPSOK) ;;
    Ret (if cfg0 then vfp else vfm).

(** [MMG5_vfrac], mmg2.c:775-889.  Only the first two coordinates are read. *)
Definition area2 (a b c : v3) : Q :=
  (1 # 2) * Qabs ((cx b - cx a) * (cy c - cy a) - (cy b - cy a) * (cx c - cx a)).

Definition vfrac2_1vertex (p : nat -> v3) (i0 : nat) (v : nat -> Q) (part_opp : bool) : Q :=
  let i1 := (if i0 =? 2 then 0 else i0 + 1)%nat in
  let i2 := (if i0 =? 0 then 2 else i0 - 1)%nat in
  let vf := area2 (p i0) (cross p v i0 i1) (cross p v i0 i2) in
  if negb part_opp then vf else area2 (p 0%nat) (p 1%nat) (p 2%nat) - vf.

Definition vfrac2 (p : nat -> v3) (v : nat -> Q) (pm : Z) : Q :=
  let ids := [0; 1; 2]%nat in
  let zeros := filter (fun i => is_zero (v i)) ids in
  let plus := filter (fun i => is_plus (v i)) ids in
  let minus := filter (fun i => is_minus (v i)) ids in
  let vol := area2 (p 0%nat) (p 1%nat) (p 2%nat) in
  if (length zeros =? 3)%nat then 0
  else if (length minus =? 0)%nat then if (pm =? 1)%Z then vol else 0
  else if (length plus =? 0)%nat then if (pm =? -1)%Z then vol else 0
  else if (length minus =? 1)%nat then vfrac2_1vertex p (hd 0%nat minus) v (negb (pm =? -1)%Z)
  else if (length plus =? 1)%nat then vfrac2_1vertex p (hd 0%nat plus) v (negb (pm =? 1)%Z)
  else 0.
