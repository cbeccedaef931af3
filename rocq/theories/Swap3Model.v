(** The swap of two tetrahedra into three (Mmg3d). *)
From Coq Require Import ZArith List Lia Bool.
From Verif Require Import CBase Tet3Model.
Import ListNotations.
Open Scope Z_scope.

(** The tables [tau0], [tau1] of [MMG3D_swap23], mmg3d/swap_3d.c:664-737. *)
Definition taus : list (list Z) :=
  [[0;1;2;3]; [0;2;3;1]; [0;3;1;2]; [1;0;3;2]; [1;3;2;0]; [1;2;0;3];
   [2;0;1;3]; [2;1;3;0]; [2;3;0;1]; [3;0;2;1]; [3;2;1;0]; [3;1;0;2]].
Definition tau (conf i : Z) : Z := nth (Z.to_nat i) (nth (Z.to_nat conf) taus []) 0.

(** [MMG5_permedge], mmg3d/libmmg3d_private.h:213-216, in the order in which the configurations use it. *)
Definition permedge : list (list Z) :=
  [[0;1;2;3;4;5]; [1;2;0;5;3;4]; [2;0;1;4;5;3]; [0;4;3;2;1;5];
   [3;0;4;1;5;2]; [4;3;0;5;2;1]; [1;3;5;0;2;4]; [3;5;1;4;0;2];
   [5;1;3;2;4;0]; [2;5;4;1;0;3]; [4;2;5;0;3;1]; [5;4;2;3;1;0]].
Definition taued (conf e : Z) : Z :=
  let row := nth (Z.to_nat conf) [0;1;2;3;5;4;6;7;8;9;11;10] 0 in
  nth (Z.to_nat e) (nth (Z.to_nat row) permedge []) 0.

(** Writes in a boundary tetrahedron; [MG_SET], [MG_GET] of common/mmgcommon_private.h. *)
Definition w_ref (x : xtet) (i v : Z) := mkXt (upd (xref x) i v) (xftag x) (xtag x) (xedg x) (xori x).
Definition w_ftag (x : xtet) (i v : Z) := mkXt (xref x) (upd (xftag x) i v) (xtag x) (xedg x) (xori x).
Definition w_tag (x : xtet) (i v : Z) := mkXt (xref x) (xftag x) (upd (xtag x) i v) (xedg x) (xori x).
Definition w_edg (x : xtet) (i v : Z) := mkXt (xref x) (xftag x) (xtag x) (upd (xedg x) i v) (xori x).
Definition w_ori (x : xtet) (i : Z) := mkXt (xref x) (xftag x) (xtag x) (xedg x) (Z.setbit (xori x) i).
Definition ori_get (x : xtet) (i : Z) : bool := Z.testbit (xori x) i.

(** A face inside the union of the two tetrahedra; a face taken from the second one. *)
Definition inner_face (x : xtet) (i : Z) : xtet := w_ori (w_ftag (w_ref x i 0) i 0) i.
Definition from_face (x : xtet) (i : Z) (y : xtet) (j : Z) : xtet :=
  let x := w_ftag (w_ref x i (xref y j)) i (xftag y j) in
  if ori_get y j then w_ori x i else x.
Definition w_edge (x : xtet) (e t r : Z) : xtet := w_edg (w_tag x e t) e r.

(** [xt[0]], [xt[1]], [xt[2]], mmg3d/swap_3d.c:889-975: [x0], [x1] are the boundary tetrahedra of the two tetrahedra,
    [tg] and [rf] give the tag and the reference found by [MMG3D_get_shellEdgeTag] for each local edge of the second one
    (lines 748-755; its failure, which ends the function before any write, is left out).  The order of independent writes
    is not kept. *)
Definition xt_0 (c0 c1 : Z) (tg rf : Z -> Z) (x0 x1 : xtet) : xtet :=
  let t := tau c0 in let d := taued c0 in let u := taued c1 in
  let x := w_edge (w_edge (w_edge (w_edge x0 (d 0) 0 0) (d 3) (tg (u 2)) (rf (u 2))) (d 4) (tg (u 1)) (rf (u 1))) (d 5) (tg (u 5)) (rf (u 5)) in
  inner_face (inner_face (from_face x (t 0) x1 (tau c1 1)) (t 2)) (t 3).
Definition xt_1 (c0 c1 : Z) (tg rf : Z -> Z) (x0 x1 : xtet) : xtet :=
  let t := tau c0 in let d := taued c0 in let u := taued c1 in
  let x := w_edge (w_edge (w_edge (w_edge x0 (d 1) 0 0) (d 3) (tg (u 0)) (rf (u 0))) (d 5) (tg (u 1)) (rf (u 1))) (d 4) (tg (u 3)) (rf (u 3)) in
  inner_face (inner_face (from_face x (t 0) x1 (tau c1 3)) (t 1)) (t 3).
Definition xt_2 (c0 c1 : Z) (tg rf : Z -> Z) (x0 x1 : xtet) : xtet :=
  let t := tau c0 in let d := taued c0 in let u := taued c1 in
  let x := w_edge (w_edge (w_edge (w_edge x0 (d 2) 0 0) (d 4) (tg (u 0)) (rf (u 0))) (d 5) (tg (u 2)) (rf (u 2))) (d 3) (tg (u 4)) (rf (u 4)) in
  inner_face (inner_face (from_face x (t 0) x1 (tau c1 2)) (t 1)) (t 2).

(** The test [xt[j].ref[i] || xt[j].ftag[i]] on the four faces, lines 978-983. *)
Definition isx (x : xtet) : bool := existsb (fun i => negb (xref x i =? 0) || negb (xftag x i =? 0)) [0; 1; 2; 3].

Definition set_qxt (m : mesh) (k x : Z) : outcome mesh :=
  t <- get_t m k ;; set_t m k (mkTet (qv t) (qref t) (qtag t) x (qflag t)).

(** [mesh->xt++], the growth of the table if needed, and the copy, lines 993-1004 and alike; [None] is [return -1].
    The table has [mesh->xtmax+1] entries. *)
Definition new_x (m : mesh) (x : xtet) : outcome (option (Z * mesh)) :=
  let n := m_nxt m + 1 in
  if n >? alen (m_xt m) - 1 then
    match m_xgaps m with
    | [] => Ret None
    | g :: gs =>
        let m := p_xgaps (p_xts m (arecalloc (m_xt m) (alen (m_xt m) + g) xzero)) gs in
        m <- set_x (p_nxt m n) n x ;; Ret (Some (n, m))
    end
  else m <- set_x (p_nxt m n) n x ;; Ret (Some (n, m)).

(** The distribution of the boundary tetrahedra, lines 985-1071; the value returned and the mesh. *)
Definition share_x (m : mesh) (k k1 iel xi0 xt1 : Z) (a b c : xtet) : outcome (Z * mesh) :=
  _ <- c_assert ((isx a && isx b) || (isx b && isx c) || (isx c && isx a)) ;;
  if isx a then
    m <- set_x m xi0 a ;;
    if negb (xt1 =? 0) then
      if isx b then
        m <- set_qxt m k1 xt1 ;;
        m <- set_x m xt1 b ;;
        if isx c then
          o <- new_x m c ;;
          match o with None => Ret (-1, m) | Some (n, m) => m <- set_qxt m iel n ;; Ret (1, m) end
        else m <- set_qxt m iel 0 ;; Ret (1, m)
      else
        m <- set_qxt m k1 0 ;;
        m <- set_qxt m iel xt1 ;;
        m <- set_x m xt1 c ;; Ret (1, m)
    else
      o <- (if isx b then new_x m b else Ret (Some (0, m))) ;;
      match o with
      | None => Ret (-1, m)
      | Some (n, m) =>
          m <- set_qxt m k1 n ;;
          o <- (if isx c then new_x m c else Ret (Some (0, m))) ;;
          match o with None => Ret (-1, m) | Some (n, m) => m <- set_qxt m iel n ;; Ret (1, m) end
      end
  else
    m <- set_qxt m k 0 ;;
    m <- set_x m xi0 c ;;
    if negb (xt1 =? 0) then
      m <- set_qxt m k1 xt1 ;;
      m <- set_x m xt1 b ;; Ret (1, m)
    else
      o <- new_x m b ;;
      match o with None => Ret (-1, m) | Some (n, m) => m <- set_qxt m k1 n ;; Ret (1, m) end.

(** [if ( adj ) mesh->adja[4*(adj/4-1)+1+adj%4] = v]. *)
Definition back (m : mesh) (a v : Z) : outcome mesh := if a =? 0 then Ret m else set_adj m (a / 4) (a mod 4) v.

(** [MMG3D_swap23], mmg3d/swap_3d.c:625-1084, without the quality and the marks.  After [memcpy(pt1,pt0)] the branch
    [!pt1->xt] is dead because of the first assertion and is left out. *)
Definition swap23 (m : mesh) (k c0 adj c1 : Z) (tg rf : Z -> Z) : outcome (Z * mesh) :=
  let t := tau c0 in let s := tau c1 in
  pt0 <- get_t m k ;;
  _ <- c_assert (negb (qxt pt0 =? 0)) ;;
  let k1 := adj / 4 in
  _ <- c_assert (negb (k1 =? 0)) ;;
  pt1 <- get_t m k1 ;;
  _ <- c_assert (qref pt0 =? qref pt1) ;;
  let xt1 := qxt pt1 in
  let np := qv pt1 (s 0) in
  m <- set_t m k1 pt0 ;;
  ' (iel, m) <- newElt_re m ;;
  if iel =? 0 then Ret (-1, m)
  else
    m <- set_t m iel pt0 ;;
    m <- set_v m k (t 1) np ;;
    m <- set_v m k1 (t 2) np ;;
    m <- set_v m iel (t 3) np ;;
    x0 <- get_x m (qxt pt0) ;;
    adj0_2 <- get_adj m k (t 2) ;;
    adj0_3 <- get_adj m k (t 3) ;;
    adj1_1 <- get_adj m k1 (s 1) ;;
    adj1_2 <- get_adj m k1 (s 2) ;;
    adj1_3 <- get_adj m k1 (s 3) ;;
    m <- set_adj m k (t 0) adj1_1 ;;
    m <- set_adj m k (t 2) (4 * k1 + t 1) ;;
    m <- set_adj m k (t 3) (4 * iel + t 1) ;;
    m <- back m adj1_1 (4 * k + t 0) ;;
    m <- set_adj m k1 (t 0) adj1_3 ;;
    m <- set_adj m k1 (t 1) (4 * k + t 2) ;;
    m <- set_adj m k1 (t 2) adj0_2 ;;
    m <- set_adj m k1 (t 3) (4 * iel + t 2) ;;
    m <- back m adj1_3 (4 * k1 + t 0) ;;
    m <- back m adj0_2 (4 * k1 + t 2) ;;
    m <- set_adj m iel (t 0) adj1_2 ;;
    m <- set_adj m iel (t 1) (4 * k + t 3) ;;
    m <- set_adj m iel (t 2) (4 * k1 + t 3) ;;
    m <- set_adj m iel (t 3) adj0_3 ;;
    m <- back m adj1_2 (4 * iel + t 0) ;;
    m <- back m adj0_3 (4 * iel + t 3) ;;
    x1 <- get_x m xt1 ;;
    share_x m k k1 iel (qxt pt0) xt1 (xt_0 c0 c1 tg rf x0 x1) (xt_1 c0 c1 tg rf x0 x1) (xt_2 c0 c1 tg rf x0 x1).

(** The configurations chosen for the face [j0] of [k], mmg3d/mmg3d1.c:2840-2889; 3 when the loop finds nothing. *)
Definition swap_conf (m : mesh) (k j0 : Z) : outcome (Z * Z * Z) :=
  a <- get_adj m k j0 ;;
  pt <- get_t m k ;;
  pt1 <- get_t m (a / 4) ;;
  let j1 := a mod 4 in
  let v := qv pt (nth 0 (idir j0) 0) in
  let i := first (fun i => qv pt1 (nth (Z.to_nat i) (idir j1) 0) =? v) [0; 1; 2] 3 in
  _ <- c_assert (i <? 3) ;;
  Ret (3 * j0, a, 3 * j1 + i).

(** The swap through the face [j0] as done by [MMG5_anatet4], mmg3d/mmg3d1.c:3060-3080, once it has been chosen. *)
Definition swap (m : mesh) (k j0 : Z) (tg rf : Z -> Z) : outcome (Z * mesh) :=
  ' (c0, a, c1) <- swap_conf m k j0 ;; swap23 m k c0 a c1 tg rf.
