(** Walks in a tetrahedral mesh and local operators of Mmg3d: the ball of a
    vertex, the shell of an edge, the collapse. *)
From Coq Require Import ZArith List Lia Bool.
From Verif Require Import CBase.
Import ListNotations.
Open Scope Z_scope.

(** A tetrahedron: vertices, reference, tag, index in the table of boundary tetrahedra and
    scratch flag (MMG5_Tetra, common/libmmgtypes.h:407-418, other fields left out). *)
Record tetra := mkTet { qv : Z -> Z; qref : Z; qtag : Z; qxt : Z; qflag : Z }.
Definition tzero : tetra := mkTet (fun _ => 0) 0 0 0 0.

(** A boundary tetrahedron: references and tags of the faces, tags and references of the edges,
    orientations of the faces (MMG5_xTetra, common/libmmgtypes.h:425-437). *)
Record xtet := mkXt { xref : Z -> Z; xftag : Z -> Z; xtag : Z -> Z; xedg : Z -> Z; xori : Z }.
Definition xzero : xtet := mkXt (fun _ => 0) (fun _ => 0) (fun _ => 0) (fun _ => 0) 0.

(** common/mmgcommon_private.h:145-153. *)
Definition MG_REQ := 4.
Definition MG_BDY := 16.
Definition MG_NOSURF := 64.
Definition has_tag (t b : Z) : bool := negb (Z.land t b =? 0).

(** [MMG5_inxt3], [MMG5_idir], [MMG5_iare], [MMG5_ifar], mmg3d/libmmg3d_private.h:172-186. *)
Definition inxt3 (i : Z) : Z := if i =? 0 then 1 else if i =? 1 then 2 else if i =? 2 then 3 else 0.
Definition nth6 {A} (d : A) (l : list A) (i : Z) : A := nth (Z.to_nat i) l d.
Definition iare (a : Z) : Z * Z := nth6 (0, 0) [(0,1); (0,2); (0,3); (1,2); (1,3); (2,3)] a.
Definition ifar (a : Z) : Z * Z := nth6 (0, 0) [(2,3); (1,3); (1,2); (0,3); (0,2); (0,1)] a.
Definition idir (i : Z) : list Z := nth6 [] [[1;2;3]; [0;3;2]; [0;1;3]; [0;2;1]] i.

(** The mesh; the tables of the points are not modelled.  [m_nxt] is [mesh->xt].  [m_gaps] lists what the memory
    budget allows for the successive enlargements of the table of the tetrahedra: the number of tetrahedra added, and
    whether the memory of the adjacency table follows; [m_xgaps] the same for the table of the boundary tetrahedra.
    An empty list means that the enlargement is refused. *)
Record mesh := mkMesh {
  m_tet : arr tetra; m_adj : arr Z; m_xt : arr xtet;
  m_nil : Z; m_ne : Z; m_nemax : Z; m_base : Z; m_nxt : Z; m_gaps : list (Z * bool); m_xgaps : list Z }.

Definition p_tet (m : mesh) (a : arr tetra) := mkMesh a (m_adj m) (m_xt m) (m_nil m) (m_ne m) (m_nemax m) (m_base m) (m_nxt m) (m_gaps m) (m_xgaps m).
Definition p_adjs (m : mesh) (a : arr Z) := mkMesh (m_tet m) a (m_xt m) (m_nil m) (m_ne m) (m_nemax m) (m_base m) (m_nxt m) (m_gaps m) (m_xgaps m).
Definition p_xts (m : mesh) (a : arr xtet) := mkMesh (m_tet m) (m_adj m) a (m_nil m) (m_ne m) (m_nemax m) (m_base m) (m_nxt m) (m_gaps m) (m_xgaps m).
Definition p_nil (m : mesh) (a : Z) := mkMesh (m_tet m) (m_adj m) (m_xt m) a (m_ne m) (m_nemax m) (m_base m) (m_nxt m) (m_gaps m) (m_xgaps m).
Definition p_ne (m : mesh) (a : Z) := mkMesh (m_tet m) (m_adj m) (m_xt m) (m_nil m) a (m_nemax m) (m_base m) (m_nxt m) (m_gaps m) (m_xgaps m).
Definition p_base (m : mesh) (a : Z) := mkMesh (m_tet m) (m_adj m) (m_xt m) (m_nil m) (m_ne m) (m_nemax m) a (m_nxt m) (m_gaps m) (m_xgaps m).
Definition p_nxt (m : mesh) (a : Z) := mkMesh (m_tet m) (m_adj m) (m_xt m) (m_nil m) (m_ne m) (m_nemax m) (m_base m) a (m_gaps m) (m_xgaps m).
Definition p_xgaps (m : mesh) (a : list Z) := mkMesh (m_tet m) (m_adj m) (m_xt m) (m_nil m) (m_ne m) (m_nemax m) (m_base m) (m_nxt m) (m_gaps m) a.

Definition get_t (m : mesh) (k : Z) : outcome tetra := rd (m_tet m) k.
Definition set_t (m : mesh) (k : Z) (t : tetra) : outcome mesh := a <- wr (m_tet m) k t ;; Ret (p_tet m a).
Definition set_v (m : mesh) (k i x : Z) : outcome mesh :=
  t <- get_t m k ;; set_t m k (mkTet (upd (qv t) i x) (qref t) (qtag t) (qxt t) (qflag t)).
Definition set_flag (m : mesh) (k x : Z) : outcome mesh :=
  t <- get_t m k ;; set_t m k (mkTet (qv t) (qref t) (qtag t) (qxt t) x).
Definition get_adj (m : mesh) (k i : Z) : outcome Z := rd (m_adj m) (4 * (k - 1) + 1 + i).
Definition set_adj (m : mesh) (k i x : Z) : outcome mesh :=
  a <- wr (m_adj m) (4 * (k - 1) + 1 + i) x ;; Ret (p_adjs m a).
Definition get_x (m : mesh) (k : Z) : outcome xtet := rd (m_xt m) k.
Definition set_x (m : mesh) (k : Z) (x : xtet) : outcome mesh := a <- wr (m_xt m) k x ;; Ret (p_xts m a).
Definition MG_EOK (t : tetra) : bool := 0 <? qv t 0.

(** [MMG3D_LMAX], mmg3d/libmmg3d.h:130. *)
Definition LMAX : Z := 10240.

(** The first index in a list of local numbers that satisfies a test; [d] at the end of the loop. *)
Fixpoint first (f : Z -> bool) (l : list Z) (d : Z) : Z :=
  match l with [] => d | j :: l => if f j then j else first f l d end.

(** ** The ball of a vertex *)

(** The body of the loop on the three faces, mmg3d/boulep_3d.c:84-100; [None] is [return 0]. *)
Fixpoint boule_faces (n : nat) (m : mesh) (nump : Z) (l : list Z) (k i : Z) : outcome (option (mesh * list Z)) :=
  match n with
  | O => Ret (Some (m, l))
  | S n =>
      let i := inxt3 i in
      a <- get_adj m k i ;;
      if a =? 0 then boule_faces n m nump l k i
      else
        let k1 := a / 4 in
        pt1 <- get_t m k1 ;;
        if qflag pt1 =? m_base m then boule_faces n m nump l k i
        else
          m <- set_flag m k1 (m_base m) ;;
          let j := first (fun j => qv pt1 j =? nump) [0; 1; 2; 3] 4 in
          _ <- c_assert (j <? 4) ;;
          if Z.of_nat (length l) >? LMAX - 3 then Ret None
          else boule_faces n m nump (l ++ [4 * k1 + j]) k i
  end.

(** The loop on the list, lines 79-103; [cur] is the number of entries already explored. *)
Fixpoint boule_loop (fuel : nat) (m : mesh) (nump : Z) (l : list Z) (cur : nat) : outcome (option (mesh * list Z)) :=
  match fuel with
  | O => Stuck
  | S f =>
      match nth_error l cur with
      | None => Ret (Some (m, l))
      | Some e =>
          res <- boule_faces 3 m nump l (e / 4) (e mod 4) ;;
          match res with
          | None => Ret None
          | Some (m, l) => boule_loop f m nump l (S cur)
          end
      end
  end.

(** [MMG5_boulevolp], mmg3d/boulep_3d.c:57-105; the flags are dropped when it returns 0. *)
Definition boulevolp (m : mesh) (start ip : Z) : outcome (option (mesh * list Z)) :=
  let m := p_base m (m_base m + 1) in
  pt <- get_t m start ;;
  _ <- c_assert ((0 <=? ip) && (ip <? 4)) ;;
  m <- set_flag m start (m_base m) ;;
  boule_loop (S (Z.to_nat LMAX)) m (qv pt ip) [4 * start + ip] 0.

(** ** The shell of an edge *)

(** [MMG3D_findEdge], mmg3d/boulep_3d.c:116-146; 6 when the edge is not found. *)
Definition findEdge (pt : tetra) (na nb : Z) : Z :=
  first (fun a => let (p, q) := iare a in
    ((qv pt p =? na) && (qv pt q =? nb)) || ((qv pt p =? nb) && (qv pt q =? na))) [0; 1; 2; 3; 4; 5] 6.

(** What a walk ends with: a value to return, or the next tetrahedron ([start] or 0), the pivot,
    the list and the boundary mark. *)
Inductive walked := Failed (r : Z) | Walked (adj piv : Z) (l : list Z) (bdy : bool).

Definition face_bdy (m : mesh) (pt : tetra) (f : Z) : outcome bool :=
  if qxt pt =? 0 then Ret false else x <- get_x m (qxt pt) ;; Ret (has_tag (xftag x f) MG_BDY).

(** The first loop of [MMG5_coquil], mmg3d/boulep_3d.c:1429-1477. *)
Fixpoint coquil_one (fuel : nat) (m : mesh) (start na nb adj piv : Z) (l : list Z) (bdy : bool) : outcome walked :=
  if (adj =? 0) || (adj =? start) then Ret (Walked adj piv l bdy)
  else
    match fuel with
    | O => Stuck
    | S f =>
        pt <- get_t m adj ;;
        if has_tag (qtag pt) MG_REQ then Ret (Failed 0)
        else
          let i := findEdge pt na nb in
          if i =? 6 then Ret (Failed (-1))
          else
            let l := l ++ [6 * adj + i] in
            if Z.of_nat (length l) >? LMAX - 3 then Ret (Failed (-1))
            else
              let f0 := fst (ifar i) in
              let f1 := snd (ifar i) in
              let first := qv pt f0 =? piv in
              let fac := if first then f0 else f1 in
              _ <- c_assert (qv pt fac =? piv) ;;
              a <- get_adj m adj fac ;;
              bdy <- (if bdy then Ret true else face_bdy m pt fac) ;;
              coquil_one f m start na nb (a / 4) (qv pt (if first then f1 else f0)) l bdy
    end.

(** The second loop, lines 1507-1541. *)
Fixpoint coquil_two (fuel : nat) (m : mesh) (na nb adj piv : Z) (l : list Z) : outcome walked :=
  if adj =? 0 then Ret (Walked 0 piv l true)
  else
    match fuel with
    | O => Stuck
    | S f =>
        let adj := adj / 4 in
        pt <- get_t m adj ;;
        if has_tag (qtag pt) MG_REQ then Ret (Failed 0)
        else
          let i := findEdge pt na nb in
          if i =? 6 then Ret (Failed (-1))
          else
            let l := l ++ [6 * adj + i] in
            if Z.of_nat (length l) >? LMAX - 2 then Ret (Failed (-1))
            else
              let f0 := fst (ifar i) in
              let f1 := snd (ifar i) in
              let first := qv pt f0 =? piv in
              a <- get_adj m adj (if first then f0 else f1) ;;
              coquil_two f m na nb a (qv pt (if first then f1 else f0)) l
    end.

(** [MMG5_coquil], mmg3d/boulep_3d.c:1406-1543: the value returned, the list and the mark [isbdy]. *)
Definition coquil (m : mesh) (start ia : Z) : outcome (Z * list Z * bool) :=
  _ <- c_assert (1 <=? start) ;;
  pt <- get_t m start ;;
  _ <- c_assert (MG_EOK pt) ;;
  let na := qv pt (fst (iare ia)) in
  let nb := qv pt (snd (iare ia)) in
  a <- get_adj m start (fst (ifar ia)) ;;
  b <- face_bdy m pt (fst (ifar ia)) ;;
  w <- coquil_one (Z.to_nat LMAX) m start na nb (a / 4) (qv pt (snd (ifar ia))) [6 * start + ia] b ;;
  match w with
  | Failed r => Ret (r, [], false)
  | Walked adj piv l b =>
      if adj =? start then Ret (2 * Z.of_nat (length l), l, b)
      else
        let e := last l 0 in
        let adj := e / 6 in
        let i := e mod 6 in
        pt <- get_t m adj ;;
        let first := qv pt (fst (ifar i)) =? piv in
        a <- get_adj m adj (if first then fst (ifar i) else snd (ifar i)) ;;
        w <- coquil_two (Z.to_nat LMAX) m na nb a (qv pt (if first then snd (ifar i) else fst (ifar i))) [e] ;;
        match w with
        | Failed r => Ret (r, [], false)
        | Walked _ _ l b => Ret (2 * Z.of_nat (length l) + 1, l, b)
        end
  end.

(** The new tag and reference of an edge, mmg3d/boulep_3d.c:1196-1206 and 1252-1262. *)
Definition settag_x (x : xtet) (i tag edg : Z) : xtet :=
  let t0 := xtag x i in
  let t := Z.lor t0 tag in
  let t := if (has_tag t0 MG_REQ && negb (has_tag t0 MG_NOSURF)) || (has_tag tag MG_REQ && negb (has_tag tag MG_NOSURF))
           then Z.ldiff t MG_NOSURF else t in
  mkXt (xref x) (xftag x) (upd (xtag x) i t) (upd (xedg x) i (Z.max (xedg x i) edg)) (xori x).

(** The new tag in [MMG5_deltag], lines 1318-1324 and 1363-1369. *)
Definition deltag_x (x : xtet) (i tag : Z) : xtet :=
  if has_tag (xftag x (fst (ifar i))) MG_BDY || has_tag (xftag x (snd (ifar i))) MG_BDY
  then mkXt (xref x) (xftag x) (upd (xtag x) i (Z.ldiff (xtag x i) tag)) (xedg x) (xori x) else x.

Definition on_x (m : mesh) (pt : tetra) (f : xtet -> xtet) : outcome mesh :=
  if qxt pt =? 0 then Ret m else x <- get_x m (qxt pt) ;; set_x m (qxt pt) (f x).

(** [MMG3D_settag_oneDir], [MMG3D_deltag_oneDir], lines 1177-1219 and 1299-1334, with the change of
    a boundary tetrahedron as a parameter; the fuel stands for a walk that does not end. *)
Fixpoint shell_dir (F : Z -> xtet -> xtet) (fuel : nat) (m : mesh) (start na nb adj piv : Z) : outcome (Z * mesh) :=
  if (adj =? 0) || (adj =? start) then Ret (adj, m)
  else
    match fuel with
    | O => Stuck
    | S f =>
        pt <- get_t m adj ;;
        let i := findEdge pt na nb in
        if i =? 6 then Ret (-1, m)
        else
          m <- on_x m pt (F i) ;;
          let f0 := fst (ifar i) in
          let f1 := snd (ifar i) in
          let first := qv pt f0 =? piv in
          a <- get_adj m adj (if first then f0 else f1) ;;
          shell_dir F f m start na nb (a / 4) (qv pt (if first then f1 else f0))
    end.

(** [MMG5_settag], [MMG5_deltag], lines 1234-1281 and 1347-1392. *)
Definition shell_set (F : Z -> xtet -> xtet) (m : mesh) (start ia : Z) : outcome (Z * mesh) :=
  _ <- c_assert (1 <=? start) ;;
  pt <- get_t m start ;;
  _ <- c_assert (MG_EOK pt) ;;
  let na := qv pt (fst (iare ia)) in
  let nb := qv pt (snd (iare ia)) in
  a <- get_adj m start (fst (ifar ia)) ;;
  m <- on_x m pt (F ia) ;;
  ' (adj, m) <- shell_dir F (Z.to_nat (m_nemax m)) m start na nb (a / 4) (qv pt (snd (ifar ia))) ;;
  if adj =? start then Ret (1, m)
  else if adj <? 0 then Ret (0, m)
  else
    _ <- c_assert (adj =? 0) ;;
    pt <- get_t m start ;;
    a <- get_adj m start (snd (ifar ia)) ;;
    ' (adj, m) <- shell_dir F (Z.to_nat (m_nemax m)) m start na nb (a / 4) (qv pt (fst (ifar ia))) ;;
    if adj <? 0 then Ret (0, m) else Ret (1, m).

Definition settag (m : mesh) (start ia tag edg : Z) : outcome (Z * mesh) := shell_set (fun i x => settag_x x i tag edg) m start ia.
Definition deltag (m : mesh) (start ia tag : Z) : outcome (Z * mesh) := shell_set (fun i x => deltag_x x i tag) m start ia.

(** ** The pool of tetrahedra *)

(** [MMG3D_newElt], mmg3d/zaldy_3d.c:99-111; [0] when the free list is empty. *)
Definition newElt (m : mesh) : outcome (Z * mesh) :=
  if m_nil m =? 0 then Ret (0, m)
  else
    let cur := m_nil m in
    let m := if m_ne m <? cur then p_ne m cur else m in
    t <- get_t m cur ;;
    let m := p_nil m (qv t 3) in
    m <- set_t m cur (mkTet (upd (qv t) 3 0) (qref t) (qtag t) (qxt t) (qflag t)) ;;
    Ret (cur, m).

(** [MMG3D_TETRA_REALLOC], mmg3d/libmmg3d_private.h:99-135: the table of the tetrahedra grows by [g], the new ones are
    chained in the free list from [mesh->ne+1] to [mesh->nemax-1], then the adjacency table grows, if the memory allows
    it, and [MMG3D_newElt] is called again.  Returns [0] when [law] is executed. *)
Definition tetra_realloc (m : mesh) : outcome (Z * mesh) :=
  match m_gaps m with
  | [] => Ret (0, m)
  | (g, adjok) :: gs =>
      let old := m_nemax m in
      let mx := old + g in
      let tet := mkArr (mx + 1) (fun k => if k <? old + 1 then aget (m_tet m) k else tzero) in
      let m := mkMesh tet (m_adj m) (m_xt m) (m_ne m + 1) (m_ne m) mx (m_base m) (m_nxt m) gs (m_xgaps m) in
      m <- for_range (m_ne m + 1) (mx - 2) (fun k m => set_v m k 3 (k + 1)) m ;;
      if adjok then
        newElt (p_adjs m (arecalloc (m_adj m) (4 * mx + 5) 0))
      else Ret (0, m)
  end.

(** [iel = MMG3D_newElt(mesh); if ( !iel ) MMG3D_TETRA_REALLOC(...)]; 0 when [law] is executed. *)
Definition newElt_re (m : mesh) : outcome (Z * mesh) :=
  ' (iel, m) <- newElt m ;;
  if iel =? 0 then tetra_realloc m else Ret (iel, m).

(** ** The collapse *)

(** The loop [while ( !MG_EOK(&mesh->tetra[mesh->ne]) && mesh->ne ) mesh->ne--]. *)
Fixpoint shrink_ne (m : mesh) (fuel : nat) : outcome mesh :=
  match fuel with
  | O => Ret m
  | S f =>
      t <- get_t m (m_ne m) ;;
      if negb (MG_EOK t) && negb (m_ne m =? 0) then shrink_ne (p_ne m (m_ne m - 1)) f
      else Ret m
  end.

(** [MMG3D_delElt], mmg3d/zaldy_3d.c:123-144 (the adjacency table exists). *)
Definition delElt (m : mesh) (iel : Z) : outcome (Z * mesh) :=
  t <- get_t m iel ;;
  if negb (MG_EOK t) then Ret (0, m)
  else
    m <- set_t m iel (mkTet (upd (fun _ => 0) 3 (m_nil m)) 0 0 0 0) ;;
    m <- set_adj m iel 0 0 ;;
    m <- set_adj m iel 1 0 ;;
    m <- set_adj m iel 2 0 ;;
    m <- set_adj m iel 3 0 ;;
    let m := p_nil m iel in
    m <- (if iel =? m_ne m then shrink_ne m (S (Z.to_nat (m_ne m))) else Ret m) ;;
    Ret (1, m).

(** The entries of the ball, with a minus sign for those that hold [nq], mmg3d/colver_3d.c:1185-1199. *)
Fixpoint col_mark (m : mesh) (nq : Z) (l : list Z) : outcome (list Z) :=
  match l with
  | [] => Ret []
  | e :: l =>
      pt <- get_t m (e / 4) ;;
      r <- col_mark m nq l ;;
      Ret ((if existsb (fun i => qv pt i =? nq) (idir (e mod 4)) then - e else e) :: r)
  end.

(** The test against an existing element, lines 1202-1220; [true] when the collapse is refused. *)
Fixpoint col_exists (m : mesh) (nq : Z) (l : list Z) : outcome bool :=
  match l with
  | [] => Ret false
  | e :: l =>
      if e <? 0 then col_exists m nq l
      else
        a <- get_adj m (e / 4) (e mod 4) ;;
        if a =? 0 then col_exists m nq l
        else
          pt <- get_t m (a / 4) ;;
          if qv pt (a mod 4) =? nq then Ret true else col_exists m nq l
  end.

(** The elements that disappear, lines 1320-1545, without what concerns the boundary tetrahedra. *)
Fixpoint col_shell (m : mesh) (nq : Z) (l : list Z) : outcome (Z * mesh) :=
  match l with
  | [] => Ret (1, m)
  | e :: l =>
      if e >? 0 then col_shell m nq l
      else
        let iel := (- e) / 4 in
        let ip := (- e) mod 4 in
        pt <- get_t m iel ;;
        let iq := first (fun i => qv pt i =? nq) [inxt3 ip; inxt3 (inxt3 ip); inxt3 (inxt3 (inxt3 ip))] 4 in
        _ <- c_assert (iq <? 4) ;;
        a <- get_adj m iel iq ;;
        b <- get_adj m iel ip ;;
        let pel := a / 4 in
        let voyp := a mod 4 in
        let qel := b / 4 in
        let voyq := b mod 4 in
        m <- (if negb (pel =? 0) then set_adj m pel voyp (4 * qel + voyq) else Ret m) ;;
        m <- (if negb (qel =? 0) then set_adj m qel voyq (4 * pel + voyp) else Ret m) ;;
        ' (r, m) <- delElt m iel ;;
        if r =? 0 then Ret (-1, m) else col_shell m nq l
  end.

(** The others, lines 1548-1561, without the quality. *)
Fixpoint col_move (m : mesh) (nq : Z) (l : list Z) : outcome mesh :=
  match l with
  | [] => Ret m
  | e :: l =>
      if e <? 0 then col_move m nq l
      else m <- set_v m (e / 4) (e mod 4) nq ;; col_move m nq l
  end.

(** [MMG5_colver], mmg3d/colver_3d.c:1154-1564, without the tags and the references of the faces and edges: these parts
    write no vertex and no adjacency.  They can stop the collapse when the table of the boundary tetrahedra is full
    (line 1486) or an edge is not found in its shell; both are left out. *)
Definition colver (m : mesh) (list : list Z) (indq : Z) : outcome (Z * mesh) :=
  match list with
  | [] => Stuck
  | e :: _ =>
      pt <- get_t m (e / 4) ;;
      let np := qv pt (e mod 4) in
      let nq := qv pt indq in
      list <- col_mark m nq list ;;
      ex <- col_exists m nq list ;;
      if ex : bool then Ret (0, m)
      else
        ' (r, m) <- col_shell m nq list ;;
        if r <? 0 then Ret (-1, m)
        else m <- col_move m nq list ;; Ret (np, m)
  end.

(** The collapse as called by the remeshing steps for an inner point: the ball from [MMG5_boulevolp], then
    [MMG5_colver] (mmg3d/mmg3d1.c:1105-1150, mmg3d/mmg3d1_delone.c; the geometric tests are left out). *)
Definition collapse (m : mesh) (k ip iq : Z) : outcome (Z * mesh) :=
  res <- boulevolp m k ip ;;
  match res with
  | None => Ret (0, m)
  | Some (m, l) => colver m l iq
  end.
