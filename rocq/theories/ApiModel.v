(** Model of the entity setters and getters of the API
    (src/mmg3d/API_functions_3d.c).

    Positions, indices and references are unbounded integers, coordinates are
    reals, user arrays are checked arrays.  Messages are dropped.  The arrays of
    the five kinds of elements are gathered in one map indexed by the kind; the
    vertices of an element are the list of its [v\[i\]] and its tags the list
    of its [tag\[i\]] (one tag for tetrahedra, prisms and edges). *)
From Coq Require Import ZArith Reals List Bool.
From Verif Require Import CBase KerModel.
Import ListNotations.
Open Scope Z_scope.

(** mmgcommon_private.h:145-157. *)
Definition MG_REF : Z := 1.
Definition MG_GEO : Z := 2.
Definition MG_REQ : Z := 4.
Definition MG_CRN : Z := 32.
Definition MG_PARBDY : Z := 8192.
Definition MG_NUL : Z := 32768.

(** [tag & b] as a condition, [tag |= b] and [tag &= ~b]. *)
Definition has (t b : Z) : bool := negb (Z.land t b =? 0).
Definition bset (b : Z) (on : bool) (t : Z) : Z := if on then Z.lor t b else Z.ldiff t b.

(** libmmgtypes.h: the fields of [MMG5_Point] used here, and of
    [MMG5_Tetra], [MMG5_Prism], [MMG5_Tria], [MMG5_Quad], [MMG5_Edge]. *)
Record pnt := mkPt { pc : vec3; pref : Z; ptag : Z; pflag : Z; ptmp : Z }.
Record elt := mkEl { ev : list Z; eref : Z; etg : list Z }.

Inductive kind := KTet | KPri | KTri | KQua | KEdg.
Definition kind_eqb (a b : kind) : bool :=
  match a, b with KTet, KTet | KPri, KPri | KTri, KTri | KQua, KQua | KEdg, KEdg => true | _, _ => false end.

(** Number of vertices and of tags of an element. *)
Definition nv (k : kind) : nat := match k with KTet => 4 | KPri => 6 | KTri => 3 | KQua => 4 | KEdg => 2 end%nat.
Definition ntag (k : kind) : nat := match k with KTri => 3 | KQua => 4 | _ => 1 end%nat.

(** [MMG5_Mesh]: [np], [npmax], [point], [npi]; for each kind the count, the
    maximum, the array and the reading cursor; [xt] and [xp], used as counters
    of reoriented tetrahedra. *)
Record amesh := mkM {
  mnp : Z; mnpmax : Z; mpt : arr pnt; mnpi : Z;
  mcnt : kind -> Z; mmax : kind -> Z; mel : kind -> arr elt; mcur : kind -> Z;
  mxt : Z; mxp : Z }.

Definition set_pts (m : amesh) (a : arr pnt) : amesh :=
  mkM (mnp m) (mnpmax m) a (mnpi m) (mcnt m) (mmax m) (mel m) (mcur m) (mxt m) (mxp m).
Definition set_els (m : amesh) (k : kind) (a : arr elt) : amesh :=
  mkM (mnp m) (mnpmax m) (mpt m) (mnpi m) (mcnt m) (mmax m)
      (fun k' => if kind_eqb k' k then a else mel m k') (mcur m) (mxt m) (mxp m).
Definition set_xt (m : amesh) (x : Z) : amesh :=
  mkM (mnp m) (mnpmax m) (mpt m) (mnpi m) (mcnt m) (mmax m) (mel m) (mcur m) x (mxp m).
Definition set_xp (m : amesh) (x : Z) : amesh :=
  mkM (mnp m) (mnpmax m) (mpt m) (mnpi m) (mcnt m) (mmax m) (mel m) (mcur m) (mxt m) x.
Definition set_npi (m : amesh) (x : Z) : amesh :=
  mkM (mnp m) (mnpmax m) (mpt m) x (mcnt m) (mmax m) (mel m) (mcur m) (mxt m) (mxp m).
Definition set_cur (m : amesh) (k : kind) (x : Z) : amesh :=
  mkM (mnp m) (mnpmax m) (mpt m) (mnpi m) (mcnt m) (mmax m) (mel m)
      (fun k' => if kind_eqb k' k then x else mcur m k') (mxt m) (mxp m).

(** [MMG3D_setMeshSize_initData] (API_functions_3d.c:217-261) followed by the
    zero-filled allocations of [MMG3D_Set_meshSize] (263-290), the memory being
    available: the arrays have [max+1] entries and the cursors are put at the
    end. *)
Definition pnt0 : pnt := mkPt (V3 0 0 0) 0 0 0 0.
Definition elt0 (k : kind) : elt := mkEl (repeat 0 (nv k)) 0 (repeat 0 (ntag k)).
Definition new_mesh (np npmax : Z) (cnt max : kind -> Z) : amesh :=
  mkM np npmax (acalloc (npmax + 1) pnt0) np cnt max (fun k => acalloc (max k + 1) (elt0 k)) cnt 0 0.

(** Consecutive reads [a\[j\], a\[j+1\], ...] and writes. *)
Fixpoint rd_list {A} (a : arr A) (j : Z) (n : nat) : outcome (list A) :=
  match n with
  | O => Ret []
  | S n' => x <- rd a j ;; l <- rd_list a (j + 1) n' ;; Ret (x :: l)
  end.
Fixpoint wr_list {A} (a : arr A) (j : Z) (l : list A) : outcome (arr A) :=
  match l with
  | [] => Ret a
  | x :: l' => a1 <- wr a j x ;; wr_list a1 (j + 1) l'
  end.

(** ** Vertices *)

(** [MMG3D_Set_vertex] (362-396). *)
Definition Set_vertex (m : amesh) (c : vec3) (ref pos : Z) : outcome (Z * amesh) :=
  if mnp m =? 0 then Ret (0, m)
  else if mnpmax m <? pos then Ret (0, m)
  else if mnp m <? pos then Ret (0, m)
  else a <- wr (mpt m) pos (mkPt c ref MG_NUL 0 0) ;; Ret (1, set_pts m a).

(** [if ( refs != NULL ) x->ref = refs\[j\];] *)
Definition rd_ref (refs : option (arr Z)) (j old : Z) : outcome Z :=
  match refs with None => Ret old | Some a => rd a j end.
(** [if ( p != NULL ) p\[j\] = x;] *)
Definition wr_opt (p : option (arr Z)) (j x : Z) : outcome (option (arr Z)) :=
  match p with None => Ret None | Some a => a1 <- wr a j x ;; Ret (Some a1) end.

(** [MMG3D_Set_vertices] (458-482). *)
Definition Set_vertices (m : amesh) (vertices : arr R) (refs : option (arr Z)) : outcome (Z * amesh) :=
  a <- for_range 1 (mnp m) (fun i a =>
         p <- rd a i ;;
         c <- rd_list vertices ((i - 1) * 3) 3 ;;
         r <- rd_ref refs (i - 1) (pref p) ;;
         wr a i (mkPt (V3 (nth 0 c 0%R) (nth 1 c 0%R) (nth 2 c 0%R)) r MG_NUL 0 0)) (mpt m) ;;
  Ret (1, set_pts m a).

Definition b2z (b : bool) : Z := if b then 1 else 0.

(** What the getters return for a vertex: coordinates, reference, corner, required. *)
Definition vdata := (vec3 * Z * Z * Z)%type.

(** [MMG3D_GetByIdx_vertex] (425-456). *)
Definition GetByIdx_vertex (m : amesh) (idx : Z) : outcome (Z * option vdata) :=
  if (idx <? 1) || (mnp m <? idx) then Ret (0, None)
  else p <- rd (mpt m) idx ;;
       Ret (1, Some (pc p, pref p, b2z (has (ptag p) MG_CRN), b2z (has (ptag p) MG_REQ))).

(** [MMG3D_Get_vertex] (398-423). *)
Definition Get_vertex (m : amesh) : outcome (Z * option vdata * amesh) :=
  let i := (if mnpi m =? mnp m then 0 else mnpi m) + 1 in
  let m1 := set_npi m i in
  if mnp m <? i then Ret (0, None, m1)
  else r <- GetByIdx_vertex m1 i ;; Ret (r, m1).

(** [MMG3D_Get_vertices] (485-519), into the arrays of the caller. *)
Definition Get_vertices (m : amesh) (vertices : arr R) (refs corners required : option (arr Z))
  : outcome (arr R * option (arr Z) * option (arr Z) * option (arr Z)) :=
  for_range 1 (mnp m) (fun i s =>
    let '(vs, rf, co, rq) := s in
    p <- rd (mpt m) i ;;
    vs1 <- wr_list vs ((i - 1) * 3) [vx (pc p); vy (pc p); vz (pc p)] ;;
    rf1 <- wr_opt rf (i - 1) (pref p) ;;
    co1 <- wr_opt co (i - 1) (b2z (has (ptag p) MG_CRN)) ;;
    rq1 <- wr_opt rq (i - 1) (b2z (has (ptag p) MG_REQ)) ;;
    Ret (vs1, rf1, co1, rq1)) (vertices, refs, corners, required).

(** ** Elements *)

(** [mesh->point\[v\].tag &= ~MG_NUL] for each vertex in turn. *)
Fixpoint clear_nul (a : arr pnt) (vs : list Z) : outcome (arr pnt) :=
  match vs with
  | [] => Ret a
  | v :: l => p <- rd a v ;;
              a1 <- wr a v (mkPt (pc p) (pref p) (bset MG_NUL false (ptag p)) (pflag p) (ptmp p)) ;;
              clear_nul a1 l
  end.

(** [MMG5_orvol] (tools.c:952-961). *)
Definition orvol_pts (a : arr pnt) (vs : list Z) : outcome R :=
  match vs with
  | [a0; a1; a2; a3] =>
      p0 <- rd a a0 ;; p1 <- rd a a1 ;; p2 <- rd a a2 ;; p3 <- rd a a3 ;;
      Ret (det4pt (pc p0) (pc p1) (pc p2) (pc p3))
  | _ => Stuck
  end.

(** [aux = pt->v\[2\]; pt->v\[2\] = pt->v\[3\]; pt->v\[3\] = aux;] *)
Definition swap23 (vs : list Z) : list Z :=
  match vs with [a0; a1; a2; a3] => [a0; a1; a3; a2] | _ => vs end.

(** Lines 552-590 and 647-688: store the tetrahedron, revive its vertices,
    compute the volume, refuse a null one (the element stays stored), swap two
    vertices of a negative one.  [None]: null volume; [Some b]: done, [b] tells
    whether two vertices were swapped. *)
Definition store_tet (m : amesh) (pos : Z) (vs : list Z) (ref : Z) : outcome (option bool * amesh) :=
  e <- rd (mel m KTet) pos ;;
  els <- wr (mel m KTet) pos (mkEl vs ref (etg e)) ;;
  pts <- clear_nul (mpt m) vs ;;
  vol <- orvol_pts pts vs ;;
  let m1 := set_els (set_pts m pts) KTet els in
  if negb (ltb EPSD2 (Rabs vol)) then Ret (None, m1)
  else if ltb vol 0 then
    els2 <- wr els pos (mkEl (swap23 vs) ref (etg e)) ;;
    Ret (Some true, set_els m1 KTet els2)
  else Ret (Some false, m1).

(** [MMG3D_Set_tetrahedron] (521-591). *)
Definition Set_tetrahedron (m : amesh) (vs : list Z) (ref pos : Z) : outcome (Z * amesh) :=
  if mcnt m KTet =? 0 then Ret (0, m)
  else if mmax m KTet <? pos then Ret (0, m)
  else if mcnt m KTet <? pos then Ret (0, m)
  else '(r, m1) <- store_tet m pos vs (Z.abs ref) ;;
       match r with
       | None => Ret (0, m1)
       | Some true => Ret (1, set_xt m1 (mxt m1 + 1))
       | Some false => Ret (1, m1)
       end.

(** [MMG3D_Set_tetrahedra] (635-691); the loop is left at the first null volume. *)
Definition Set_tetrahedra (m : amesh) (tetra : arr Z) (refs : option (arr Z)) : outcome (Z * amesh) :=
  for_range 1 (mcnt m KTet) (fun i s =>
    let '(ret, m) := s in
    if ret =? 0 then Ret s
    else
      vs <- rd_list tetra ((i - 1) * 4) 4 ;;
      e <- rd (mel m KTet) i ;;
      r <- match refs with None => Ret (eref e) | Some a => x <- rd a (i - 1) ;; Ret (Z.abs x) end ;;
      '(q, m1) <- store_tet m i vs r ;;
      match q with
      | None => Ret (0, m1)
      | Some true => Ret (1, set_xp m1 (mxp m1 + 1))
      | Some false => Ret (1, m1)
      end) (1, set_xp m 0).

(** [MMG3D_Set_prism] (717-755): no comparison with the allocated size. *)
Definition Set_prism (m : amesh) (vs : list Z) (ref pos : Z) : outcome (Z * amesh) :=
  if mcnt m KPri =? 0 then Ret (0, m)
  else if mcnt m KPri <? pos then Ret (0, m)
  else
    e <- rd (mel m KPri) pos ;;
    els <- wr (mel m KPri) pos (mkEl vs ref (etg e)) ;;
    pts <- clear_nul (mpt m) vs ;;
    Ret (1, set_els (set_pts m pts) KPri els).

(** [MMG3D_Set_prisms] (803-831). *)
Definition Set_prisms (m : amesh) (prisms : arr Z) (refs : option (arr Z)) : outcome (Z * amesh) :=
  m' <- for_range 1 (mcnt m KPri) (fun i m =>
    vs <- rd_list prisms ((i - 1) * 6) 6 ;;
    e <- rd (mel m KPri) i ;;
    r <- rd_ref refs (i - 1) (eref e) ;;
    els <- wr (mel m KPri) i (mkEl vs r (etg e)) ;;
    pts <- clear_nul (mpt m) vs ;;
    Ret (set_els (set_pts m pts) KPri els)) m ;;
  Ret (1, m').

(** The elements that do not touch the vertices. *)
Definition put_elt (m : amesh) (k : kind) (vs : list Z) (ref : Z) (tg : list Z -> list Z) (pos : Z) : outcome (Z * amesh) :=
  e <- rd (mel m k) pos ;;
  els <- wr (mel m k) pos (mkEl vs ref (tg (etg e))) ;;
  Ret (1, set_els m k els).

(** [MMG3D_Set_triangle] (862-894). *)
Definition Set_triangle (m : amesh) (vs : list Z) (ref pos : Z) : outcome (Z * amesh) :=
  if mcnt m KTri =? 0 then Ret (0, m)
  else if mmax m KTri <? pos then Ret (0, m)
  else if mcnt m KTri <? pos then Ret (0, m)
  else put_elt m KTri vs ref (fun t => t) pos.

(** [MMG3D_Set_quadrilateral] (981-1007). *)
Definition Set_quadrilateral (m : amesh) (vs : list Z) (ref pos : Z) : outcome (Z * amesh) :=
  if mcnt m KQua =? 0 then Ret (0, m)
  else if mcnt m KQua <? pos then Ret (0, m)
  else put_elt m KQua vs ref (fun t => t) pos.

(** [MMG3D_Set_edge] (1098-1128): also sets the reference mark. *)
Definition Set_edge (m : amesh) (vs : list Z) (ref pos : Z) : outcome (Z * amesh) :=
  if mcnt m KEdg =? 0 then Ret (0, m)
  else if mmax m KEdg <? pos then Ret (0, m)
  else if mcnt m KEdg <? pos then Ret (0, m)
  else put_elt m KEdg vs ref (map (bset MG_REF true)) pos.

(** The loops of [MMG3D_Set_triangles] (938-954), [MMG3D_Set_quadrilaterals]
    (1054-1070) and [MMG3D_Set_edges] (1176-1191). *)
Definition put_elts (k : kind) (m : amesh) (flat : arr Z) (refs : option (arr Z)) (tg : list Z -> list Z) : outcome (Z * amesh) :=
  els <- for_range 1 (mcnt m k) (fun i a =>
    vs <- rd_list flat ((i - 1) * Z.of_nat (nv k)) (nv k) ;;
    e <- rd a i ;;
    r <- rd_ref refs (i - 1) (eref e) ;;
    wr a i (mkEl vs r (tg (etg e)))) (mel m k) ;;
  Ret (1, set_els m k els).
Definition Set_triangles (m : amesh) := put_elts KTri m.
Definition Set_quadrilaterals (m : amesh) := put_elts KQua m.
Definition Set_edges (m : amesh) := put_elts KEdg m.

Definition Set_elt (k : kind) (m : amesh) (vs : list Z) (ref pos : Z) : outcome (Z * amesh) :=
  match k with
  | KTet => Set_tetrahedron m vs ref pos
  | KPri => Set_prism m vs ref pos
  | KTri => Set_triangle m vs ref pos
  | KQua => Set_quadrilateral m vs ref pos
  | KEdg => Set_edge m vs ref pos
  end.
Definition Set_elts (k : kind) (m : amesh) (flat : arr Z) (refs : option (arr Z)) : outcome (Z * amesh) :=
  match k with
  | KTet => Set_tetrahedra m flat refs
  | KPri => Set_prisms m flat refs
  | KTri => Set_triangles m flat refs (fun t => t)
  | KQua => Set_quadrilaterals m flat refs (fun t => t)
  | KEdg => Set_edges m flat refs (map (bset MG_REF true))
  end.

(** [isRequired]: the tag of a tetrahedron, prism, edge; the three (four) tags
    of a triangle (quadrilateral).  [isRidge]: edges only. *)
Definition reqd (e : elt) : bool := forallb (fun t => has t MG_REQ) (etg e).
Definition ridge (e : elt) : bool := forallb (fun t => has t MG_GEO) (etg e).

(** Order in which the array getters write the vertices: line 842-847
    exchanges the second and third vertex of a prism. *)
Definition out_order (k : kind) (vs : list Z) : list Z :=
  match k, vs with
  | KPri, [a0; a1; a2; a3; a4; a5] => [a0; a2; a1; a3; a4; a5]
  | _, _ => vs
  end.

(** [MMG3D_Get_tetrahedra] (693-715), [MMG3D_Get_prisms] (833-858),
    [MMG3D_Get_triangles] (956-979), [MMG3D_Get_quadrilaterals] (1072-1096),
    [MMG3D_Get_edges] (1193-1221; the only one with [areRidges]). *)
Definition Get_elts (k : kind) (m : amesh) (flat : arr Z) (refs ridges required : option (arr Z))
  : outcome (arr Z * option (arr Z) * option (arr Z) * option (arr Z)) :=
  for_range 1 (mcnt m k) (fun i s =>
    let '(vs, rf, ri, rq) := s in
    e <- rd (mel m k) i ;;
    vs1 <- wr_list vs ((i - 1) * Z.of_nat (nv k)) (out_order k (ev e)) ;;
    rf1 <- wr_opt rf (i - 1) (eref e) ;;
    ri1 <- wr_opt ri (i - 1) (b2z (ridge e)) ;;
    rq1 <- wr_opt rq (i - 1) (b2z (reqd e)) ;;
    Ret (vs1, rf1, ri1, rq1)) (flat, refs, ridges, required).

(** One-by-one getters.  The cursors of tetrahedra, triangles and edges are
    fields of the mesh; those of prisms (line 759) and quadrilaterals (1012) are
    static variables of the functions, common to all meshes. *)
Record statics := mkSt { st_pri : Z; st_qua : Z }.
Definition cur (g : statics) (m : amesh) (k : kind) : Z :=
  match k with KPri => st_pri g | KQua => st_qua g | _ => mcur m k end.
Definition move (g : statics) (m : amesh) (k : kind) (x : Z) : statics * amesh :=
  match k with
  | KPri => (mkSt x (st_qua g), m)
  | KQua => (mkSt (st_pri g) x, m)
  | _ => (g, set_cur m k x)
  end.

(** [MMG3D_Get_tetrahedron] (593-633), [MMG3D_Get_prism] (757-801),
    [MMG3D_Get_triangle] (896-937), [MMG3D_Get_quadrilateral] (1009-1052),
    [MMG3D_Get_edge] (1130-1174): vertices, reference, ridge, required. *)
Definition edata := (list Z * Z * Z * Z)%type.
Definition Get_elt (k : kind) (g : statics) (m : amesh) : outcome (Z * option edata * statics * amesh) :=
  let i := (if cur g m k =? mcnt m k then 0 else cur g m k) + 1 in
  let '(g1, m1) := move g m k i in
  if mcnt m k <? i then Ret (0, None, g1, m1)
  else e <- rd (mel m k) i ;;
       Ret (1, Some (ev e, eref e, b2z (ridge e), b2z (reqd e)), g1, m1).

(** ** Marks *)

(** [MMG3D_Set_corner], [MMG3D_Unset_corner] (1223-1233). *)
Definition corner (m : amesh) (k : Z) (on : bool) : outcome (Z * amesh) :=
  _ <- c_assert (k <=? mnp m) ;;
  p <- rd (mpt m) k ;;
  a <- wr (mpt m) k (mkPt (pc p) (pref p) (bset MG_CRN on (ptag p)) (pflag p) (ptmp p)) ;;
  Ret (1, set_pts m a).

(** [MMG3D_Set_requiredVertex], [MMG3D_Unset_requiredVertex] (1235-1246). *)
Definition requiredVertex (m : amesh) (k : Z) (on : bool) : outcome (Z * amesh) :=
  _ <- c_assert (k <=? mnp m) ;;
  p <- rd (mpt m) k ;;
  let t := bset MG_REQ on (ptag p) in
  a <- wr (mpt m) k (mkPt (pc p) (pref p) (if on then bset MG_NUL false t else t) (pflag p) (ptmp p)) ;;
  Ret (1, set_pts m a).

(** [tag\[i\] |= b] or [tag\[i\] &= ~b] for all the tags of element [i]. *)
Definition mark_elt (m : amesh) (k : kind) (b : Z) (on : bool) (i : Z) : outcome amesh :=
  e <- rd (mel m k) i ;;
  els <- wr (mel m k) i (mkEl (ev e) (eref e) (map (bset b on) (etg e))) ;;
  Ret (set_els m k els).

(** [MMG3D_Set/Unset_requiredTetrahedron] (1248-1258), [requiredTriangle]
    (1280-1294), [parallelTriangle] (1318-1332), [ridge] (1356-1366),
    [requiredEdge] (1368-1378). *)
Definition markElt (k : kind) (b : Z) (m : amesh) (i : Z) (on : bool) : outcome (Z * amesh) :=
  _ <- c_assert (i <=? mcnt m k) ;;
  m1 <- mark_elt m k b on i ;; Ret (1, m1).

(** [MMG3D_Set/Unset_requiredTetrahedra] (1260-1278), [requiredTriangles]
    (1296-1316), [parallelTriangles] (1334-1354): no check of the indices. *)
Definition markElts (k : kind) (b : Z) (m : amesh) (idx : arr Z) (n : Z) (on : bool) : outcome (Z * amesh) :=
  m1 <- for_range 0 (n - 1) (fun j m => i <- rd idx j ;; mark_elt m k b on i) m ;;
  Ret (1, m1).

(** ** Histories of calls *)

Inductive mark := MReqTet | MReqTri | MParTri | MRidge | MReqEdg.
Definition mark_kind (q : mark) : kind := match q with MReqTet => KTet | MReqTri | MParTri => KTri | MRidge | MReqEdg => KEdg end.
Definition mark_bit (q : mark) : Z := match q with MParTri => MG_PARBDY | MRidge => MG_GEO | _ => MG_REQ end.

Inductive call :=
| CVertex (c : vec3) (ref pos : Z)
| CVertices (vertices : arr R) (refs : option (arr Z))
| CElt (k : kind) (vs : list Z) (ref pos : Z)
| CElts (k : kind) (flat : arr Z) (refs : option (arr Z))
| CCorner (pos : Z) (on : bool)
| CReqVertex (pos : Z) (on : bool)
| CMark (q : mark) (pos : Z) (on : bool)
| CMarks (q : mark) (idx : arr Z) (n : Z) (on : bool).

Definition exec (c : call) (m : amesh) : outcome (Z * amesh) :=
  match c with
  | CVertex c ref pos => Set_vertex m c ref pos
  | CVertices vs refs => Set_vertices m vs refs
  | CElt k vs ref pos => Set_elt k m vs ref pos
  | CElts k flat refs => Set_elts k m flat refs
  | CCorner pos on => corner m pos on
  | CReqVertex pos on => requiredVertex m pos on
  | CMark q pos on => markElt (mark_kind q) (mark_bit q) m pos on
  | CMarks q idx n on => markElts (mark_kind q) (mark_bit q) m idx n on
  end.

Fixpoint run (h : list call) (m : amesh) : outcome (list Z * amesh) :=
  match h with
  | [] => Ret ([], m)
  | c :: h' => '(r, m1) <- exec c m ;; '(rs, m2) <- run h' m1 ;; Ret (r :: rs, m2)
  end.

(** Reading calls on several meshes, interleaved. *)
Inductive rcall := RVertex (x : Z) | RElt (x : Z) (k : kind).
Inductive rdata := DV (d : option vdata) | DE (d : option edata).

Definition rexec (c : rcall) (g : statics) (ms : Z -> amesh) : outcome (Z * rdata * statics * (Z -> amesh)) :=
  match c with
  | RVertex x => '(r, d, m) <- Get_vertex (ms x) ;; Ret (r, DV d, g, upd ms x m)
  | RElt x k => '(r, d, g1, m) <- Get_elt k g (ms x) ;; Ret (r, DE d, g1, upd ms x m)
  end.

Fixpoint rrun (h : list rcall) (g : statics) (ms : Z -> amesh) : outcome (list (Z * rdata)) :=
  match h with
  | [] => Ret []
  | c :: h' => '(r, d, g1, ms1) <- rexec c g ms ;; l <- rrun h' g1 ms1 ;; Ret ((r, d) :: l)
  end.
