(** Model of the small dense kernels of src/common/tools.c over the real
    numbers (exact arithmetic, no rounding). *)
From Coq Require Import ZArith Reals Lra List.
From Verif Require Import CBase.
Import ListNotations.
Open Scope R_scope.

(** mmgcommon_private.h:94-97 *)
Definition EPSD : R := / 10 ^ 30.
Definition EPSD2 : R := / 10 ^ 200.
Definition EPS : R := / 10 ^ 6.

(** C comparison [x < y] and [x > y] on doubles. *)
Definition ltb (x y : R) : bool := if Rlt_dec x y then true else false.
Definition eqb (x y : R) : bool := if Req_EM_T x y then true else false.

(** C division: a null divisor is the outcome [Stuck] (no finite result). *)
Definition rdiv (x y : R) : outcome R := if Req_EM_T y 0 then Stuck else Ret (x / y).

(** mmgcommon_private.h:141 *)
Definition rmin (a b : R) : R := if ltb a b then a else b.

(** [double m\[6\]]: symmetric 3x3 matrix, upper triangle by rows. *)
Record sym3 := S6 { s0 : R; s1 : R; s2 : R; s3 : R; s4 : R; s5 : R }.
(** [double m\[9\]] or [double m\[3\]\[3\]], by rows. *)
Record mat3 := M9 { g0 : R; g1 : R; g2 : R; g3 : R; g4 : R; g5 : R; g6 : R; g7 : R; g8 : R }.
(** [double m\[2\]\[2\]]. *)
Record mat2 := M4 { h0 : R; h1 : R; h2 : R; h3 : R }.
(** [double v\[3\]]. *)
Record vec3 := V3 { vx : R; vy : R; vz : R }.

(** [if( maxx > vmax ) vmax = maxx;] *)
Definition vmaxl (l : list R) (v : R) : R :=
  fold_left (fun v x => if ltb v (Rabs x) then Rabs x else v) l v.

(** [MMG5_crossprod3d] (tools.c:300-304). *)
Definition crossprod (a b : vec3) : vec3 :=
  V3 (vy a * vz b - vz a * vy b) (vz a * vx b - vx a * vz b) (vx a * vy b - vy a * vx b).

(** [MMG5_mn] (tools.c:337-350). *)
Definition mn (m n : sym3) : mat3 :=
  M9 (s0 m * s0 n + s1 m * s1 n + s2 m * s2 n)
     (s0 m * s1 n + s1 m * s3 n + s2 m * s4 n)
     (s0 m * s2 n + s1 m * s4 n + s2 m * s5 n)
     (s1 m * s0 n + s3 m * s1 n + s4 m * s2 n)
     (s1 m * s1 n + s3 m * s3 n + s4 m * s4 n)
     (s1 m * s2 n + s3 m * s4 n + s4 m * s5 n)
     (s2 m * s0 n + s4 m * s1 n + s5 m * s2 n)
     (s2 m * s1 n + s4 m * s3 n + s5 m * s4 n)
     (s2 m * s2 n + s4 m * s4 n + s5 m * s5 n).

(** [MMG5_rmtr] (tools.c:405-431); [n] is the intermediate array. *)
Definition rmtr (r : mat3) (m : sym3) : sym3 :=
  let n00 := s0 m * g0 r + s1 m * g1 r + s2 m * g2 r in
  let n10 := s1 m * g0 r + s3 m * g1 r + s4 m * g2 r in
  let n20 := s2 m * g0 r + s4 m * g1 r + s5 m * g2 r in
  let n01 := s0 m * g3 r + s1 m * g4 r + s2 m * g5 r in
  let n11 := s1 m * g3 r + s3 m * g4 r + s4 m * g5 r in
  let n21 := s2 m * g3 r + s4 m * g4 r + s5 m * g5 r in
  let n02 := s0 m * g6 r + s1 m * g7 r + s2 m * g8 r in
  let n12 := s1 m * g6 r + s3 m * g7 r + s4 m * g8 r in
  let n22 := s2 m * g6 r + s4 m * g7 r + s5 m * g8 r in
  S6 (g0 r * n00 + g1 r * n10 + g2 r * n20)
     (g0 r * n01 + g1 r * n11 + g2 r * n21)
     (g0 r * n02 + g1 r * n12 + g2 r * n22)
     (g3 r * n01 + g4 r * n11 + g5 r * n21)
     (g3 r * n02 + g4 r * n12 + g5 r * n22)
     (g6 r * n02 + g7 r * n12 + g8 r * n22).

(** [MMG5_rotmatrix] (tools.c:467-503). *)
Definition rotmatrix (n : vec3) : outcome mat3 :=
  let aa := vx n * vx n in
  let bb := vy n * vy n in
  let ab := vx n * vy n in
  let ll := aa + bb in
  let ca := vz n in
  let sa := sqrt (1 - rmin 1 (ca * ca)) in
  if ltb ll EPS then
    if ltb 0 (vz n) then Ret (M9 1 0 0 0 1 0 0 0 1)
    else Ret (M9 (-1) 0 0 0 1 0 0 0 (-1))
  else
    let l := sqrt ll in
    r00 <- rdiv (aa * ca + bb) ll ;;
    r01 <- rdiv (ab * (ca - 1)) ll ;;
    r02 <- rdiv (- vx n * sa) l ;;
    r11 <- rdiv (bb * ca + aa) ll ;;
    r12 <- rdiv (- vy n * sa) l ;;
    r20 <- rdiv (vx n * sa) l ;;
    r21 <- rdiv (vy n * sa) l ;;
    Ret (M9 r00 r01 r02 r01 r11 r12 r20 r21 ca).

(** [MMG5_invmat] (tools.c:562-603); [None] is the return value 0. *)
Definition invmat (m : sym3) : outcome (option sym3) :=
  let vmax := vmaxl [s2 m; s4 m] (Rabs (s1 m)) in
  if ltb vmax EPS then
    i0 <- rdiv 1 (s0 m) ;; i3 <- rdiv 1 (s3 m) ;; i5 <- rdiv 1 (s5 m) ;;
    Ret (Some (S6 i0 0 0 i3 0 i5))
  else
    let vmax := vmaxl [s1 m; s2 m; s3 m; s4 m; s5 m] (Rabs (s0 m)) in
    if eqb vmax 0 then Ret None else
    let aa := s3 m * s5 m - s4 m * s4 m in
    let bb := s4 m * s2 m - s1 m * s5 m in
    let cc := s1 m * s4 m - s2 m * s3 m in
    let det := s0 m * aa + s1 m * bb + s2 m * cc in
    if ltb (Rabs det) EPSD2 then Ret None else
    det <- rdiv 1 det ;;
    Ret (Some (S6 (aa * det) (bb * det) (cc * det)
                  ((s0 m * s5 m - s2 m * s2 m) * det)
                  ((s1 m * s2 m - s0 m * s4 m) * det)
                  ((s0 m * s3 m - s1 m * s1 m) * det))).

(** [MMG5_invmatg] (tools.c:613-643). *)
Definition invmatg (m : mat3) : outcome (option mat3) :=
  let vmax := vmaxl [g1 m; g2 m; g3 m; g4 m; g5 m; g6 m; g7 m; g8 m] (Rabs (g0 m)) in
  if eqb vmax 0 then Ret None else
  let aa := g4 m * g8 m - g5 m * g7 m in
  let bb := g5 m * g6 m - g3 m * g8 m in
  let cc := g3 m * g7 m - g4 m * g6 m in
  let det := g0 m * aa + g1 m * bb + g2 m * cc in
  if ltb (Rabs det) EPSD then Ret None else
  det <- rdiv 1 det ;;
  Ret (Some (M9 (aa * det)
                ((g2 m * g7 m - g1 m * g8 m) * det)
                ((g1 m * g5 m - g2 m * g4 m) * det)
                (bb * det)
                ((g0 m * g8 m - g2 m * g6 m) * det)
                ((g2 m * g3 m - g0 m * g5 m) * det)
                (cc * det)
                ((g1 m * g6 m - g0 m * g7 m) * det)
                ((g0 m * g4 m - g1 m * g3 m) * det))).

(** [MMG5_invmat33] (tools.c:653-736).  The debug assertion on the result
    (tools.c:707-733) is part of the model. *)
Definition near_id (r : mat3) : bool :=
  ltb (Rabs (g0 r - 1)) EPS && ltb (Rabs (g4 r - 1)) EPS && ltb (Rabs (g8 r - 1)) EPS &&
  ltb (Rabs (g1 r)) EPS && ltb (Rabs (g2 r)) EPS && ltb (Rabs (g5 r)) EPS &&
  ltb (Rabs (g3 r)) EPS && ltb (Rabs (g6 r)) EPS && ltb (Rabs (g7 r)) EPS.

Definition invmat33 (m : mat3) : outcome (option mat3) :=
  let vmax := vmaxl [g0 m; g1 m; g2 m; g3 m; g4 m; g5 m; g6 m; g7 m; g8 m] (Rabs (g0 m)) in
  if eqb vmax 0 then Ret None else
  let vmax := vmaxl [g6 m; g7 m; g1 m; g2 m; g5 m] (Rabs (g3 m)) in
  if ltb vmax EPS then
    i0 <- rdiv 1 (g0 m) ;; i4 <- rdiv 1 (g4 m) ;; i8 <- rdiv 1 (g8 m) ;;
    Ret (Some (M9 i0 0 0 0 i4 0 0 0 i8))
  else
    let aa := g4 m * g8 m - g7 m * g5 m in
    let bb := g7 m * g2 m - g1 m * g8 m in
    let cc := g1 m * g5 m - g4 m * g2 m in
    let det := g0 m * aa + g3 m * bb + g6 m * cc in
    if ltb (Rabs det) EPSD then Ret None else
    det <- rdiv 1 det ;;
    let mi := M9 (aa * det) (bb * det) (cc * det)
                 ((g6 m * g5 m - g3 m * g8 m) * det)
                 ((g0 m * g8 m - g6 m * g2 m) * det)
                 ((g3 m * g2 m - g0 m * g5 m) * det)
                 ((g3 m * g7 m - g6 m * g4 m) * det)
                 ((g6 m * g1 m - g0 m * g7 m) * det)
                 ((g0 m * g4 m - g3 m * g1 m) * det) in
    let res := M9 (g0 m * g0 mi + g1 m * g3 mi + g2 m * g6 mi)
                  (g0 m * g1 mi + g1 m * g4 mi + g2 m * g7 mi)
                  (g0 m * g2 mi + g1 m * g5 mi + g2 m * g8 mi)
                  (g3 m * g0 mi + g4 m * g3 mi + g5 m * g6 mi)
                  (g3 m * g1 mi + g4 m * g4 mi + g5 m * g7 mi)
                  (g3 m * g2 mi + g4 m * g5 mi + g5 m * g8 mi)
                  (g6 m * g0 mi + g7 m * g3 mi + g8 m * g6 mi)
                  (g6 m * g1 mi + g7 m * g4 mi + g8 m * g7 mi)
                  (g6 m * g2 mi + g7 m * g5 mi + g8 m * g8 mi) in
    _ <- c_assert (near_id res) ;;
    Ret (Some mi).

(** [MMG5_invmat22] (tools.c:745-758). *)
Definition invmat22 (m : mat2) : outcome (option mat2) :=
  let det := h0 m * h3 m - h1 m * h2 m in
  if ltb (Rabs det) EPS then Ret None else
  det <- rdiv 1 det ;;
  Ret (Some (M4 (h3 m * det) (- h1 m * det) (- h2 m * det) (h0 m * det))).

(** [MMG5_sys33sym] (tools.c:769-815). *)
Definition sys33sym (a : sym3) (b : vec3) : outcome (option vec3) :=
  let m := Rabs (s0 a) in
  let m := rmin (Rabs (s3 a)) m in
  let m := rmin (Rabs (s5 a)) m in
  m <- (if ltb m EPSD then Ret 1 else rdiv 1 m) ;;
  let t := S6 (s0 a * m) (s1 a * m) (s2 a * m) (s3 a * m) (s4 a * m) (s5 a * m) in
  let det := s0 t * (s3 t * s5 t - s4 t * s4 t) - s1 t * (s1 t * s5 t - s2 t * s4 t)
             + s2 t * (s1 t * s4 t - s2 t * s3 t) in
  if ltb (Rabs det) EPSD then Ret None else
  det <- rdiv 1 det ;;
  let ia := S6 (s3 t * s5 t - s4 t * s4 t) (- (s1 t * s5 t - s2 t * s4 t))
               (s1 t * s4 t - s2 t * s3 t) (s0 t * s5 t - s2 t * s2 t)
               (- (s0 t * s4 t - s2 t * s1 t)) (s0 t * s3 t - s1 t * s1 t) in
  let r0 := s0 ia * vx b + s1 ia * vy b + s2 ia * vz b in
  let r1 := s1 ia * vx b + s3 ia * vy b + s4 ia * vz b in
  let r2 := s2 ia * vx b + s4 ia * vy b + s5 ia * vz b in
  Ret (Some (V3 (r0 * (det * m)) (r1 * (det * m)) (r2 * (det * m)))).

(** [MMG5_nonUnitNorPts] (tools.c:127-148) on coordinates. *)
Definition nonUnitNor (p1 p2 p3 : vec3) : vec3 :=
  let abx := vx p2 - vx p1 in let aby := vy p2 - vy p1 in let abz := vz p2 - vz p1 in
  let acx := vx p3 - vx p1 in let acy := vy p3 - vy p1 in let acz := vz p3 - vz p1 in
  V3 (aby * acz - abz * acy) (abz * acx - abx * acz) (abx * acy - aby * acx).

(** [MMG5_norpts] (tools.c:183-199) on coordinates; [None] is 0. *)
Definition norpts (p1 p2 p3 : vec3) : outcome (option vec3) :=
  let n := nonUnitNor p1 p2 p3 in
  let det := vx n * vx n + vy n * vy n + vz n * vz n in
  if ltb det EPSD2 then Ret None else
  dd <- rdiv 1 (sqrt det) ;;
  Ret (Some (V3 (vx n * dd) (vy n * dd) (vz n * dd))).

(** [MMG5_det3pt1vec] (tools.c:920-929) and [MMG5_det4pt] (tools.c:932-940). *)
Definition det3pt1vec (c0 c1 c2 v : vec3) : R :=
  let m00 := vx c1 - vx c0 in let m01 := vx c2 - vx c0 in
  let m10 := vy c1 - vy c0 in let m11 := vy c2 - vy c0 in
  let m20 := vz c1 - vz c0 in let m21 := vz c2 - vz c0 in
  vx v * (m10 * m21 - m20 * m11) - vy v * (m00 * m21 - m20 * m01) + vz v * (m00 * m11 - m10 * m01).
Definition det4pt (c0 c1 c2 c3 : vec3) : R :=
  det3pt1vec c0 c1 c2 (V3 (vx c3 - vx c0) (vy c3 - vy c0) (vz c3 - vz c0)).

(** [MMG2D_quickarea] (tools.c:971-986). *)
Definition quickarea (a b c : R * R) : R :=
  let abx := fst b - fst a in let aby := snd b - snd a in
  let acx := fst c - fst a in let acy := snd c - snd a in
  abx * acy - aby * acx.
