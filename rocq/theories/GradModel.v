(** Isotropic gradation of the sizes: [MMG5_gradsiz_iso], [MMG5_gradsizreq_iso]
    (common/isosiz.c:278-463), [MMG3D_gradsiz_iso], [MMG3D_gradsizreq_iso]
    (mmg3d/isosiz_3d.c:1083-1262) and the marking of the points on required edges
    (isosiz.c:246-270, isosiz_3d.c:1048-1073).

    One model for Mmg2d, Mmgs and Mmg3d ([gdim]).  Doubles are rationals; [sqrt] is a
    parameter [rt] of the functions.  Simplifications: the coordinates of a vertex are a total
    function; messages are left out; integers are unbounded. *)
From Coq Require Import ZArith QArith Qabs List Bool.
From Verif Require Import CBase BdryProofs OctModel FracModel ScaleModel.
Import ListNotations.
Open Scope Z_scope.

(** Vertices; [tag & MG_REQ] for each edge (in a tetrahedron: of its xtetra, false without
    one); [MG_EOK]; [tag & MG_REQ] of a tetrahedron. *)
Record gel := mkG { gv : nat -> Z; gtag : nat -> bool; gok : bool; greq : bool }.

Record gmesh := mkGm { g_n : Z; g_np : Z; g_elt : arr gel; g_pos : Z -> v3 }.

(** Number of vertices of an element; the pairs visited in an element in order; the edges
    whose tags are looked at; whether required elements are skipped; the mark of a point on a
    required edge; the square of the length of an edge, also for required points. *)
Record gdim := mkGd { g_nv : nat; g_vis : list (nat * nat); g_mark : list (nat * (nat * nat)); g_skip : bool;
                      g_top : Z -> Z; g_dd : v3 -> v3 -> Q; g_ddr : v3 -> v3 -> Q }.

Definition dd2 (p q : v3) : Q := (cx q - cx p) * (cx q - cx p) + (cy q - cy p) * (cy q - cy p).
Definition dd3 (p q : v3) : Q := dd2 p q + (cz q - cz p) * (cz q - cz p).

(** isosiz.c:311-316 ([MMG5_inxt2], [MMG5_iprv2]), 263-267, 414-419; the required sweep
    of Mmg2d and Mmgs uses two coordinates, isosiz.c:421-423. *)
Definition tri_vis : list (nat * nat) := [(1, 2); (2, 0); (0, 1)]%nat.
Definition tri_mark : list (nat * (nat * nat)) := [(0, (1, 2)); (1, (2, 0)); (2, (0, 1))]%nat.
Definition gd2 : gdim := mkGd 3 tri_vis tri_mark false (fun n => 3 * n + 2) dd2 dd2.
Definition gds : gdim := mkGd 3 tri_vis tri_mark false (fun n => 3 * n + 2) dd3 dd2.
(** isosiz_3d.c:1107-1115 ([MMG5_iarf], [MMG5_iare]), 1064-1071. *)
Definition tet_edge (i : nat) : nat * nat := nth i [(0, 1); (0, 2); (0, 3); (1, 2); (1, 3); (2, 3)]%nat (0, 0)%nat.
Definition tet_vis : list (nat * nat) := map tet_edge [5; 4; 3; 5; 1; 2; 4; 2; 0; 3; 0; 1]%nat.
Definition tet_mark : list (nat * (nat * nat)) := map (fun i => (i, tet_edge i)) (seq 0 6).
Definition gd3 : gdim := mkGd 4 tet_vis tet_mark true (fun n => 4 * n + 3) dd3 dd3.

(** [MMG5_mark_pointsOnReqEdge_fromTria], [MMG3D_mark_pointsOnReqEdge_fromTetra] *)
Definition marks (d : gdim) (m : gmesh) (s : arr Z) : outcome (arr Z) :=
  s <- for_range 1 (g_np m) (fun k s => wr s k 0) s ;;
  for_range 1 (g_n m) (fun k s =>
    e <- rd (g_elt m) k ;;
    if negb (gok e) then Ret s
    else foldM (fun x s =>
      if gtag e (fst x) then
        s <- wr s (gv e (fst (snd x))) (g_top d (g_n m)) ;;
        wr s (gv e (snd (snd x))) (g_top d (g_n m))
      else Ret s) (g_mark d) s) s.

(** Sizes, flags of the points, number of updates. *)
Definition gstate : Type := arr Q * arr Z * Z.

(** One edge, isosiz.c:317-348, isosiz_3d.c:1118-1147. *)
Definition visit (rt : Q -> Q) (hgrad : Q) (dd : v3 -> v3 -> Q) (m : gmesh) (s : arr Z) (base : Z) (ip1 ip2 : Z) (st : gstate)
  : outcome gstate :=
  let '(met, flg, nu) := st in
  f1 <- rd flg ip1 ;;
  f2 <- rd flg ip2 ;;
  if (f1 <? base - 1) && (f2 <? base - 1) then Ret st
  else
    s1 <- rd s ip1 ;;
    s2 <- rd s ip2 ;;
    if negb (s1 =? 0) || negb (s2 =? 0) then Ret st
    else
      let ll := rt (dd (g_pos m ip1) (g_pos m ip2)) in
      h1 <- rd met ip1 ;;
      h2 <- rd met ip2 ;;
      if Qltb h1 h2 then
        if Qltb h1 EPSD then Ret st
        else
          let hn := (h1 + hgrad * ll)%Q in
          if Qltb hn h2 then
            met <- wr met ip2 hn ;; flg <- wr flg ip2 base ;; Ret (met, flg, nu + 1)
          else Ret st
      else
        if Qltb h2 EPSD then Ret st
        else
          let hn := (h2 + hgrad * ll)%Q in
          if Qltb hn h1 then
            met <- wr met ip1 hn ;; flg <- wr flg ip1 base ;; Ret (met, flg, nu + 1)
          else Ret st.

(** The loops over the elements and their edges, isosiz.c:306-351, isosiz_3d.c:1105-1150. *)
Definition sweep (d : gdim) (rt : Q -> Q) (hgrad : Q) (m : gmesh) (s : arr Z) (base : Z) (st : gstate) : outcome gstate :=
  for_range 1 (g_n m) (fun k st =>
    e <- rd (g_elt m) k ;;
    if negb (gok e) || (g_skip d && greq e) then Ret st
    else foldM (fun x st => visit rt hgrad (g_dd d) m s base (gv e (fst x)) (gv e (snd x)) st) (g_vis d) st) st.

(** The [do ... while (++it < maxit && nu > 0)] loop with [n] sweeps left; the last component
    is the number of updates in the last sweep. *)
Fixpoint sweeps (n : nat) (d : gdim) (rt : Q -> Q) (hgrad : Q) (m : gmesh) (s : arr Z) (base : Z) (met : arr Q) (flg : arr Z)
  : outcome gstate :=
  match n with
  | O => Stuck
  | Datatypes.S n' =>
      ' (met, flg, nu) <- sweep d rt hgrad m s (base + 1) (met, flg, 0) ;;
      if negb (Nat.eqb n' 0) && (0 <? nu) then sweeps n' d rt hgrad m s (base + 1) met flg else Ret (met, flg, nu)
  end.

(** [MMG5_gradsiz_iso], [MMG3D_gradsiz_iso]: sizes, marks, updates in the last sweep. *)
Definition gradsiz (d : gdim) (rt : Q -> Q) (hgrad : Q) (m : gmesh) (base : Z) (s flg : arr Z) (met : arr Q)
  : outcome (arr Q * arr Z * Z) :=
  s <- marks d m s ;;
  flg <- for_range 1 (g_np m) (fun k flg => wr flg k base) flg ;;
  ' (met, _, nu) <- sweeps 100 d rt hgrad m s base met flg ;;
  Ret (met, s, nu).

(** One edge of the sweeps from the required points, isosiz.c:404-447, isosiz_3d.c:1208-1248.
    State: sizes, marks, number of updates. *)
Definition visitr (rt : Q -> Q) (hgrad : Q) (dd : v3 -> v3 -> Q) (m : gmesh) (ip1 ip2 : Z) (st : arr Q * arr Z * Z)
  : outcome (arr Q * arr Z * Z) :=
  let '(met, s, nu) := st in
  s1 <- rd s ip1 ;;
  s2 <- rd s ip2 ;;
  if Z.abs (s1 - s2) <? 2 then Ret st
  else
    let '(ma, sl) := if s2 <? s1 then (ip1, ip2) else (ip2, ip1) in
    _ <- c_assert ((s2 <? s1) || (s1 <? s2)) ;;
    let ll := rt (dd (g_pos m ip1) (g_pos m ip2)) in
    h1 <- rd met ma ;;
    h2 <- rd met sl ;;
    sm <- rd s ma ;;
    if Qltb h1 h2 then
      if Qltb h1 EPSD then Ret st
      else
        let hn := (h1 + hgrad * ll)%Q in
        if Qle_bool h2 hn then Ret st
        else met <- wr met sl hn ;; s <- wr s sl (sm - 1) ;; Ret (met, s, nu + 1)
    else
      let hn := (h1 - hgrad * ll)%Q in
      if Qle_bool hn h2 then Ret st
      else met <- wr met sl hn ;; s <- wr s sl (sm - 1) ;; Ret (met, s, nu + 1).

Definition sweepr (d : gdim) (rt : Q -> Q) (hgrad : Q) (m : gmesh) (st : arr Q * arr Z * Z) : outcome (arr Q * arr Z * Z) :=
  for_range 1 (g_n m) (fun k st =>
    e <- rd (g_elt m) k ;;
    if negb (gok e) then Ret st
    else foldM (fun x st => visitr rt hgrad (g_ddr d) m (gv e (fst x)) (gv e (snd x)) st) (g_vis d) st) st.

Fixpoint sweepsr (n : nat) (d : gdim) (rt : Q -> Q) (hgrad : Q) (m : gmesh) (met : arr Q) (s : arr Z) (nup : Z)
  : outcome (arr Q * arr Z * Z * Z) :=
  match n with
  | O => Stuck
  | Datatypes.S n' =>
      ' (met, s, nu) <- sweepr d rt hgrad m (met, s, 0) ;;
      if negb (Nat.eqb n' 0) && (0 <? nu) then sweepsr n' d rt hgrad m met s (nup + nu) else Ret (met, s, nu, nup + nu)
  end.

(** [MMG5_gradsizreq_iso], [MMG3D_gradsizreq_iso] with the two gradations of the info
    structure: sizes, marks, updates in the last sweep, value returned. *)
Definition gradsizreq (d : gdim) (rt : Q -> Q) (hgrad hgradreq : Q) (m : gmesh) (s : arr Z) (met : arr Q)
  : outcome (arr Q * arr Z * Z * Z) :=
  s <- (if Qltb hgrad 0 then marks d m s else Ret s) ;;
  sweepsr 100 d rt hgradreq m met s 0.

(** The calls of mmg3d1_delone.c:1081-1089, mmg3d1_pattern.c:487-495, mmgs1.c:1508-1517,
    mmg2d1.c:856-865. *)
Definition gradation (d : gdim) (rt : Q -> Q) (hgrad hgradreq : Q) (m : gmesh) (base : Z) (s flg : arr Z) (met : arr Q)
  : outcome (arr Q) :=
  ' (met, s) <- (if Qltb 0 hgrad then ' (met, s, _) <- gradsiz d rt hgrad m base s flg met ;; Ret (met, s) else Ret (met, s)) ;;
  if Qltb 0 hgradreq then ' (met, _, _, _) <- gradsizreq d rt hgrad hgradreq m s met ;; Ret met else Ret met.
