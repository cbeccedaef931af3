(** The search tree of vertices, src/mmg3d/PRoctree_3d.c. *)
From Coq Require Import ZArith QArith Qround List Lia Bool.
From Verif Require Import CBase.
Import ListNotations.
Open Scope Z_scope.

Set Implicit Arguments.

(** Coordinates of a point.  The only operations of the tree on coordinates are the
    comparison with 0.5, the subtraction of 0.5 from a number in (0.5,1] and the
    doubling: exact in binary floating point for coordinates of the unit cube, so
    rationals are faithful there. *)
Definition pt := (Q * Q * Q)%type.

(** Table of vertices of a cell: number of allocated items and the initialised
    ones (the first items of the C array). *)
Definition vtab := (Z * list Z)%type.

(** [MMG3D_PROctree_s], PRoctree_3d_private.h:34-40: [nbVer], [depth], [v] ([None] is
    NULL) and [branches]: absent in [Leaf]; of a [Node] the branches 0 to 7 count. *)
Inductive cell :=
| Leaf (nb dp : Z) (v : option vtab)
| Node (nb dp : Z) (v : option vtab) (br : Z -> cell).

Definition nbv (c : cell) : Z := match c with Leaf nb _ _ => nb | Node nb _ _ _ => nb end.
Definition dpt (c : cell) : Z := match c with Leaf _ d _ => d | Node _ d _ _ => d end.
Definition tabv (c : cell) : option vtab := match c with Leaf _ _ v => v | Node _ _ v _ => v end.
Definition set_nv (c : cell) (nb : Z) (v : option vtab) : cell :=
  match c with Leaf _ d _ => Leaf nb d v | Node _ d _ br => Node nb d v br end.

(** [MMG3D_initPROctree_s], :48-54 *)
Definition init_cell : cell := Leaf 0 0 None.

(** [depthMax = 64/3 - 1], :660,120 *)
Definition depth_max : Z := 64 / 3 - 1.

(** [nv] rounded to a power of 2, :74-81 *)
Definition round_nv (nv : Z) : Z :=
  let n := nv - 1 in
  let n := Z.lor n (Z.shiftr n 1) in
  let n := Z.lor n (Z.shiftr n 2) in
  let n := Z.lor n (Z.shiftr n 4) in
  let n := Z.lor n (Z.shiftr n 8) in
  let n := Z.lor n (Z.shiftr n 16) in
  n + 1.

(** Number of listed cells plus 3, :84 *)
Definition round_nc (nv : Z) : Z := Z.max (2048 / nv) 16.

(** [ver[i]>0.5], the octant and the coordinates in the octant, :733-738 *)
Definition up_half (x : Q) : bool := negb (Qle_bool x (1 # 2)).
Definition bit (x : Q) : Z := if up_half x then 1 else 0.
Definition half (x : Q) : Q := ((x - (if up_half x then 1 # 2 else 0)) * 2)%Q.
Definition quad (p : pt) : Z := let '(x, y, z) := p in bit x + 2 * bit y + 4 * bit z.
Definition halfp (p : pt) : pt := let '(x, y, z) := p in (half x, half y, half z).

(** [!(n & (n-1))] *)
Definition pow2b (n : Z) : bool := Z.land n (n - 1) =? 0.

(** Allocation or doubling of the table of a cell with less than [nv] vertices,
    :669-681 and :743-753.  [myrealloc] checks the former size
    (mmgcommon_private.h:262-266). *)
Definition room (nb : Z) (v : option vtab) : outcome vtab :=
  if nb =? 0 then Ret (1, [])
  else if pow2b nb then
    match v with
    | Some (cap, l) => _ <- c_assert (nb =? cap) ;; Ret (2 * nb, l)
    | None => Stuck
    end
  else match v with Some t => Ret t | None => Stuck end.

(** [q->v[q->nbVer] = no], :683,760 *)
Definition store (t : vtab) (nb no : Z) : outcome vtab :=
  let '(cap, l) := t in
  if (nb <? cap) && (Z.of_nat (length l) =? nb) then Ret (cap, l ++ [no]) else Stuck.

(** [q->v[i]] *)
Definition item (v : option vtab) (i : Z) : outcome Z :=
  match v with
  | Some (_, l) => match nth_error l (Z.to_nat i) with Some x => Ret x | None => Stuck end
  | None => Stuck
  end.

(** The coordinates of a vertex in its cell of depth [d], :705-713 *)
Definition rescale (d : Z) (p : pt) : pt := Nat.iter (Z.to_nat d) halfp p.

(** [MMG3D_addPROctreeRec], :650-765, when memory suffices.  [pts] are the
    coordinates in the mesh. *)
Fixpoint add_rec (fuel : nat) (pts : Z -> pt) (nv : Z) (c : cell) (ver : pt) (no : Z) : outcome cell :=
  match fuel with
  | O => Stuck
  | S fuel =>
    let nb := nbv c in
    let d := dpt c in
    if d <? depth_max then
      if nb <? nv then
        t <- room nb (tabv c) ;;
        t <- store t nb no ;;
        Ret (set_nv c (nb + 1) (Some t))
      else
        match c with
        | Leaf _ _ v =>
          if nb =? nv then
            let c := Node (nb + 1) d v (fun _ => Leaf 0 (d + 1) None) in
            c <- for_range 0 (nv - 1) (fun i c =>
                   x <- item v i ;;
                   c <- add_rec fuel pts nv c (rescale d (pts x)) x ;;
                   Ret (set_nv c (nbv c - 1) (tabv c))) c ;;
            c <- add_rec fuel pts nv c ver no ;;
            Ret (set_nv c (nbv c - 1) None)
          else Stuck
        | Node _ _ v br =>
          let i := quad ver in
          b <- add_rec fuel pts nv (br i) (halfp ver) no ;;
          Ret (Node (nb + 1) d v (upd br i b))
        end
    else
      t <- (if nb <? nv then room nb (tabv c)
            else if nb mod nv =? 0 then
              match tabv c with
              | Some (cap, l) => _ <- c_assert (nb =? cap) ;; Ret (nb + nv, l)
              | None => Stuck
              end
            else match tabv c with Some t => Ret t | None => Stuck end) ;;
      t <- store t nb no ;;
      Ret (set_nv c (nb + 1) (Some t))
  end.

(** Enough for two calls per level. *)
Definition add_fuel : nat := 41.

(** [MMG3D_addPROctree], :775-789 *)
Definition add_vertex (pts : Z -> pt) (nv : Z) (c : cell) (no : Z) : outcome cell :=
  add_rec add_fuel pts nv c (pts no) no.

(** Position of [no] in the table, first loop of [MMG3D_delPROctreeRec] :905-907 *)
Fixpoint find_no (l : list Z) (no : Z) : option nat :=
  match l with
  | [] => None
  | x :: l => if x =? no then Some O else option_map S (find_no l no)
  end.

Definition cut (l : list Z) (i : nat) : list Z := firstn i l ++ skipn (S i) l.

(** [MMG3D_delPROctreeVertex], :800-824 *)
Definition del_item (nb cap : Z) (l : list Z) (i : nat) : outcome (Z * vtab) :=
  _ <- c_assert (Z.of_nat i <? nb) ;;
  _ <- c_assert ((Z.of_nat (length l) =? nb) && forallb (fun x => 0 <? x) l) ;;
  let l := cut l i in
  let nb := nb - 1 in
  if pow2b nb && (0 <? nb) then Ret (nb, (nb, l)) else Ret (nb, (cap, l)).

(** [MMG3D_mergeBranchesRec], :835-853: the vertices of [c] are appended to those
    copied so far *)
Fixpoint merge_rec (nv : Z) (c : cell) (acc : list Z) : outcome (list Z) :=
  match tabv c with
  | Some (_, l) =>
    _ <- c_assert (Z.of_nat (length acc) + nbv c <=? nv) ;;
    _ <- c_assert (nbv c =? Z.of_nat (length l)) ;;
    let acc := acc ++ l in
    _ <- c_assert (forallb (fun x => 0 <? x) acc) ;;
    Ret acc
  | None =>
    match c with
    | Leaf _ _ _ => Ret acc
    | Node _ _ _ br => for_range 0 7 (fun i acc => merge_rec nv (br i) acc) acc
    end
  end.

(** [MMG3D_freePROctree_s], :113-155: only its accesses *)
Fixpoint free_rec (nv : Z) (c : cell) : outcome unit :=
  if (nv <? nbv c) && (dpt c <? depth_max) then
    match c with
    | Leaf _ _ _ => Stuck
    | Node _ _ _ br => for_range 0 7 (fun i _ => free_rec nv (br i)) tt
    end
  else if 0 <? nbv c then
    if nbv c <=? nv then Ret tt else match tabv c with Some _ => Ret tt | None => Stuck end
  else Ret tt.

(** [MMG3D_mergeBranches], :864-882, on a cell whose table has just been allocated *)
Definition merge (nv nb d : Z) (br : Z -> cell) : outcome cell :=
  _ <- c_assert (nb =? nv) ;;
  l <- for_range 0 7 (fun i l => l <- merge_rec nv (br i) l ;; _ <- free_rec nv (br i) ;; Ret l) [] ;;
  Ret (Leaf nb d (Some (nv, l))).

(** First case of [MMG3D_delPROctreeRec], :903-918 *)
Definition del_tab (c : cell) (cap : Z) (l : list Z) (no : Z) : outcome cell :=
  match find_no (firstn (Z.to_nat (nbv c)) l) no with
  | None => Ret c
  | Some i =>
    ' (nb, t) <- del_item (nbv c) cap l i ;;
    Ret (set_nv c nb (if nb =? 0 then None else Some t))
  end.

(** [MMG3D_delPROctreeRec], :896-965 *)
Fixpoint del_rec (nv : Z) (c : cell) (ver : pt) (no : Z) : outcome cell :=
  match tabv c with
  | Some (cap, l) => del_tab c cap l no
  | None =>
    match c with
    | Leaf nb d _ => if nb =? nv + 1 then Stuck else Ret c
    | Node nb d v br =>
      let i := quad ver in
      let old := nbv (br i) in
      b <- del_rec nv (br i) (halfp ver) no ;;
      if nb =? nv + 1 then
        if nbv b <? old then merge nv (nb - 1) d (upd br i b)
        else Ret (Node nb d v (upd br i b))
      else Ret (Node (if old <=? nbv b then nb else nb - 1) d v (upd br i b))
    end
  end.

(** [MMG3D_delPROctree], :977-992 *)
Definition del_vertex (pts : Z -> pt) (nv : Z) (c : cell) (no : Z) : outcome cell :=
  del_rec nv c (pts no) no.

(** [MMG3D_getPROctreeCoordinate], :183-208.  The conversions to [int] do not
    overflow for coordinates of the unit cube. *)
Definition coord1 (x : Q) : Z :=
  Z.max 0 (Qfloor ((x - (1 # 2 ^ 30)) * inject_Z (2 ^ 20))).

Definition get_coord (p : pt) : Z :=
  let '(x, y, z) := p in
  let ix := coord1 x in let iy := coord1 y in let iz := coord1 z in
  let step a j i place := Z.shiftl (Z.shiftr (Z.land a (Z.shiftl 1 j)) j) place + i in
  fst (fold_left (fun acc j =>
    let '(i, place) := acc in
    let i := step ix j i place in
    let i := step iy j i (place + 1) in
    let i := step iz j i (place + 2) in
    (i, place + 3)) (map (fun k => 19 - Z.of_nat k) (seq 0 20)) (0, 0)).

(** [MMG3D_movePROctree], :225-254: [pts] are the coordinates in the mesh at the time
    of the call. *)
Definition move_vertex (pts : Z -> pt) (nv : Z) (c : cell) (no : Z) (new old : pt) : outcome cell :=
  let oldc := get_coord old in
  let newc := get_coord (pts no) in
  if newc =? oldc then Ret c
  else
    c <- del_rec nv c old no ;;
    add_rec add_fuel pts nv c new no.

(** ** Search *)

Definition Qltb (x y : Q) : bool := negb (Qle_bool y x).

(** [MMG3D_seekIndex], :337-371: the values of the recursive calls are not used. *)
Fixpoint seek_index (fuel : nat) (l : list Q) (x : Q) (lo hi : Z) : outcome Z :=
  match fuel with
  | O => Stuck
  | S fuel =>
    let get i := match nth_error l (Z.to_nat i) with Some y => if i <? 0 then Stuck else Ret y | None => Stuck end in
    if hi <? lo then _ <- seek_index fuel l x hi lo ;; Ret 1
    else if hi - lo <? 2 then y <- get hi ;; Ret (if Qltb y x then hi else lo)
    else
      let med := (lo + hi) / 2 in
      y <- get med ;;
      _ <- (if Qltb y x then seek_index fuel l x med hi else seek_index fuel l x lo med) ;;
      Ret 1
  end.

(** [MMG3D_placeInListDouble] and [MMG3D_placeInListPROctree], :298-325, or the
    addition at the end, :486-503.  The two lists (distances, cells) are kept as one
    list of pairs; [nc-3] is the size of the list of cells, the distances have three
    more items that hold the center of the box. *)
Definition insert (nc : Z) (l : list (Q * cell)) (x : Q) (c : cell) : outcome (list (Q * cell)) :=
  let n := Z.of_nat (length l) in
  if n <? nc - 3 then
    if 0 <? n then
      i <- seek_index (S (length l)) (map fst l) x 0 (n - 1) ;;
      if i + 1 <? n then Ret (firstn (Z.to_nat (i + 1)) l ++ (x, c) :: skipn (Z.to_nat (i + 1)) l)
      else Ret (l ++ [(x, c)])
    else Ret [(x, c)]
  else Stuck.

(** A box: corner and lengths. *)
Definition rect := (pt * pt)%type.

(** [MMG3D_intersectRect], :385-417, one direction: [(a,w)] is [rectin], [(b,v)] is
    [rectinout] *)
Definition inter1 (a w b v : Q) : Q * Q :=
  let a1 := (w + a)%Q in
  let b1 := (v + b)%Q in
  let lo := if Qltb b a then a else b in
  let hi := if Qltb a1 b1 then a1 else b1 in
  (lo, (hi - lo)%Q).

Definition inter (r s : rect) : bool * rect :=
  let '((ax, ay, az), (wx, wy, wz)) := r in
  let '((bx, by_, bz), (vx, vy, vz)) := s in
  let '(x, lx) := inter1 ax wx bx vx in
  let '(y, ly) := inter1 ay wy by_ vy in
  let '(z, lz) := inter1 az wz bz vz in
  (negb (Qle_bool lx 0 || Qle_bool ly 0 || Qle_bool lz 0), ((x, y, z), (lx, ly, lz))).

(** The order of the three loops, :518-522 *)
Definition corners8 : list (Z * Z * Z) :=
  [(0, 0, 0); (0, 0, 1); (0, 1, 0); (0, 1, 1); (1, 0, 0); (1, 0, 1); (1, 1, 0); (1, 1, 1)].

(** Half of the size of a cell, :451 *)
Definition half_size (d : Z) : Q := (1 / inject_Z (2 ^ (d + 1)))%Q.

(** Test of a branch, one direction, :511-515,525-527 *)
Definition visited (i : Z) (a w c : Q) : bool := if i =? 0 then negb (Qltb c a) else Qltb c (a + w).

(** The loops stop at the first failure, :534,543-545. *)
Fixpoint walk {A} (f : Z * Z * Z -> A -> outcome (bool * A)) (o : list (Z * Z * Z)) (acc : A) : outcome (bool * A) :=
  match o with
  | [] => Ret (true, acc)
  | t :: o => ' (ok, acc) <- f t acc ;; if ok then walk f o acc else Ret (false, acc)
  end.

(** [MMG3D_getListSquareRec], :443-556.  [cen] is the center of the box.  The flag is
    the value of the function. *)
Fixpoint list_rec (nc : Z) (cen : pt) (c : cell) (center : pt) (r : rect) (acc : list (Q * cell))
  : outcome (bool * list (Q * cell)) :=
  if nc - 4 <? Z.of_nat (length acc) then Ret (true, acc)
  else
    let '(cx, cy, cz) := center in
    match c with
    | Leaf _ _ None => Ret (true, acc)
    | Leaf _ _ (Some _) =>
      let '(px, py, pz) := cen in
      let x := (px - cx)%Q in let y := (py - cy)%Q in let z := (pz - cz)%Q in
      acc <- insert nc acc (x * x + y * y + z * z)%Q c ;;
      Ret (true, acc)
    | Node _ d _ br =>
      let l := half_size d in
      let '((ax, ay, az), (wx, wy, wz)) := r in
      walk (fun '(i, j, k) acc =>
        if visited i ax wx cx && visited j ay wy cy && visited k az wz cz then
          let sub t m := (t - l * inject_Z (1 - m))%Q in
          let '(ok, r') := inter r ((sub cx i, sub cy j, sub cz k), (l, l, l)) in
          if negb ok then Ret (false, acc)
          else
            let mid t m := (t - l / 2 + inject_Z m * l)%Q in
            list_rec nc cen (br (i + 2 * j + 4 * k)) (mid cx i, mid cy j, mid cz k) r' acc
        else Ret (true, acc)) corners8 acc
    end.

(** [MMG3D_getListSquare], :574-640, when memory suffices: the listed cells, none
    when the search fails or finds too many *)
Definition get_list (nc : Z) (c : cell) (r : rect) : outcome (list (Q * cell)) :=
  let '((ax, ay, az), (wx, wy, wz)) := r in
  let cen := (ax + wx / 2, ay + wy / 2, az + wz / 2)%Q in
  ' (ok, acc) <- list_rec nc cen c (1 # 2, 1 # 2, 1 # 2) r [] ;;
  if negb ok then Ret []
  else if nc - 4 <? Z.of_nat (length acc) then Ret []
  else Ret acc.

Definition dist2 (p q : pt) : Q :=
  let '(x, y, z) := p in let '(x', y', z') := q in
  let ux := (x' - x)%Q in let uy := (y' - y)%Q in let uz := (z' - z)%Q in
  (ux * ux + uy * uy + uz * uz)%Q.

(** The loops of [MMG3D_PROctreein_iso] on the listed cells, :1188-1207 *)
Fixpoint scan_cells (pts : Z -> pt) (m : Z -> Q) (p : pt) (h2 lmax : Q) (l : list (Q * cell)) : outcome Z :=
  match l with
  | [] => Ret 1
  | (_, c) :: l =>
    r <- for_range 0 (nbv c - 1) (fun j r =>
           if r =? 0 then Ret 0
           else
             ip1 <- item (tabv c) j ;;
             let d2 := dist2 p (pts ip1) in
             let h1 := (lmax * m ip1)%Q in
             Ret (if Qltb d2 h2 || Qltb d2 (h1 * h1) then 0 else 1)) 1 ;;
    if r =? 0 then Ret 0 else scan_cells pts m p h2 lmax l
  end.

(** [MMG3D_PROctreein_iso], :1143-1211: 1 if the point [ip] may be inserted *)
Definition oct_in (pts : Z -> pt) (m : Z -> Q) (nc : Z) (c : cell) (ip : Z) (lmax : Q) : outcome Z :=
  let p := pts ip in
  let '(x, y, z) := p in
  let h := (lmax * m ip)%Q in
  l <- get_list nc c ((x - h, y - h, z - h), (2 * h, 2 * h, 2 * h))%Q ;;
  scan_cells pts m p (h * h)%Q lmax l.
