(** The compaction of [MMG2D_pack] (/repo/src/mmg2d/hash_2d.c:530-868): the unused
    vertices and triangles are removed, the adjacencies, the edges, the metric and
    the solution follow.

    The edges are made by [pack_edges] of Tria2.v.  Not modelled: the
    quadrilaterals, [MMG2D_keep_only1Subdomain] (it does nothing when [info.nsd]
    is 0), the failure of the allocation of the edges, the messages.  The values
    of the solutions and the other fields of the vertices are opaque numbers. *)
From Coq Require Import ZArith List Bool Lia.
From Verif Require Import CBase SurfModel Tria2.
Import ListNotations.
Open Scope Z_scope.

(** A vertex ([MMG5_Point], libmmgtypes.h:269-289): tag, [tmp], and its other
    fields as one value. *)
Record vert : Type := mkVt { w_tag : Z; w_tmp : Z; w_dat : Z }.
Definition vert0 : vert := mkVt 0 0 0.
(** MG_NUL and MG_VOK, mmgcommon_private.h:157, 166. *)
Definition G_NUL : Z := 32768.
Definition w_ok (p : vert) : bool := w_tag p <? G_NUL.

(** Numbers of the vertices (hash_2d.c:548-561).  State: (vertices, np, nc). *)
Definition mark2 (np : Z) (w : arr vert) : outcome (arr vert * Z * Z) :=
  for_range 1 np (fun k st =>
    let '(w, n, nc) := st in
    p <- rd w k ;;
    if w_ok p then
      w <- wr w k (mkVt (thaw (w_tag p)) (n + 1) (w_dat p)) ;;
      Ret (w, n + 1, if tst (w_tag p) G_CRN then nc + 1 else nc)
    else Ret st) (w, 0, 0).

(** The ends of the edges (hash_2d.c:732-737). *)
Definition edges_ends (na : Z) (w : arr vert) (ed : arr edge) : outcome (arr edge) :=
  for_range 1 na (fun k ed =>
    e <- rd ed k ;;
    if e_a e =? 0 then Ret ed
    else
      p <- rd w (e_a e) ;; q <- rd w (e_b e) ;;
      wr ed k (mkE (w_tmp p) (w_tmp q) (e_ref e) (e_tag e))) ed.

(** [memset(pt,0,sizeof(MMG5_Tria))]. *)
Definition tri0 : tri := mkTri (fun _ => 0) (fun _ => 0) (fun _ => 0) 0.

(** The vertices of a triangle (hash_2d.c:746-748). *)
Definition ren_tri (w : arr vert) (t : tri) : outcome tri :=
  p0 <- rd w (t_v t 0) ;; p1 <- rd w (t_v t 1) ;; p2 <- rd w (t_v t 2) ;;
  Ret (mkTri (fun i => if i =? 0 then w_tmp p0 else if i =? 1 then w_tmp p1 else if i =? 2 then w_tmp p2 else t_v t i)
             (t_tag t) (t_edg t) (t_ref t)).

(** The adjacencies of the triangle [k] that becomes [nbl] (hash_2d.c:755-769). *)
Definition move2 (k nbl : Z) (adj : arr Z) : outcome (arr Z) :=
  for_range 0 2 (fun i adj =>
    x <- rd adj (3 * (k - 1) + 1 + i) ;;
    adj <- wr adj (3 * (nbl - 1) + 1 + i) x ;;
    if x =? 0 then Ret adj
    else
      adj <- wr adj (3 * (Z.quot x 3 - 1) + 1 + Z.rem x 3) (3 * nbl + i) ;;
      wr adj (3 * (k - 1) + 1 + i) 0) adj.

(** Triangles (hash_2d.c:740-774).  State: (triangles, adjacencies, nt, nbl). *)
Definition pack_tris (nt : Z) (w : arr vert) (a : arr tri) (adj : arr Z) : outcome (arr tri * arr Z * Z * Z) :=
  for_range 1 nt (fun k st =>
    let '(a, adj, n, nbl) := st in
    t <- rd a k ;;
    if t_eok t then
      t <- ren_tri w t ;;
      a <- wr a k t ;;
      if k =? nbl then Ret (a, adj, n + 1, nbl + 1)
      else
        a <- wr a nbl t ;;
        adj <- move2 k nbl adj ;;
        a <- wr a k tri0 ;;
        Ret (a, adj, n + 1, nbl + 1)
    else Ret st) (a, adj, 0, 1).

(** A solution (hash_2d.c:802-828).  State: (values, nbl). *)
Definition pack_vals (np size : Z) (w : arr vert) (m : arr Z) : outcome (arr Z * Z) :=
  for_range 1 np (fun k st =>
    let '(m, nbl) := st in
    p <- rd w k ;;
    if w_ok p then
      m <- for_range 0 (size - 1) (fun i m => x <- rd m (k * size + i) ;; wr m (nbl * size + i) x) m ;;
      Ret (m, nbl + 1)
    else Ret st) (m, 1).

(** Vertices (hash_2d.c:831-850).  State: (vertices, np, nbl). *)
Definition pack_verts (np : Z) (w : arr vert) : outcome (arr vert * Z * Z) :=
  for_range 1 np (fun k st =>
    let '(w, n, nbl) := st in
    p <- rd w k ;;
    if w_ok p then
      if k =? nbl then Ret (w, n + 1, nbl + 1)
      else
        w <- wr w nbl p ;;
        _ <- c_assert (w_tmp p =? nbl) ;;
        w <- wr w k vert0 ;;
        Ret (w, n + 1, nbl + 1)
    else Ret st) (w, 0, 1).

(** The lists of free cells (hash_2d.c:854-875): result with [npnil], [nenil]. *)
Definition free_verts (np npmax : Z) (w : arr vert) : outcome (arr vert * Z) :=
  w <- for_range 1 np (fun k w => p <- rd w k ;; wr w k (mkVt (w_tag p) 0 (w_dat p))) w ;;
  if np <? npmax - 3 then
    w <- for_range (np + 1) (npmax - 2) (fun k w => p <- rd w k ;; wr w k (mkVt (w_tag p) (k + 1) (w_dat p))) w ;;
    Ret (w, np + 1)
  else Ret (w, 0).

Definition free_tris (nt ntmax : Z) (a : arr tri) : outcome (arr tri * Z) :=
  if nt <? ntmax - 3 then
    a <- for_range (nt + 1) (ntmax - 2)
           (fun k a => t <- rd a k ;; wr a k (mkTri (upd (t_v t) 2 (k + 1)) (t_tag t) (t_edg t) (t_ref t))) a ;;
    Ret (a, nt + 1)
  else Ret (a, 0).

(** A solution ([MMG5_Sol]): number of values per vertex, [np], values. *)
Record sol2 : Type := mkSol { s_size : Z; s_np : Z; s_m : arr Z }.

(** [if ( sol && sol->m )]: [None] is a null pointer. *)
Definition pack_osol (np : Z) (w : arr vert) (s : option sol2) : outcome (option sol2) :=
  match s with
  | None => Ret None
  | Some s => '(m, _) <- pack_vals np (s_size s) w (s_m s) ;; Ret (Some (mkSol (s_size s) (s_np s) m))
  end.

Record mesh : Type := mkMesh
  { m_np : Z; m_npmax : Z; m_npnil : Z; m_w : arr vert;
    m_nt : Z; m_ntmax : Z; m_nenil : Z; m_a : arr tri; m_adj : arr Z;
    m_na : Z; m_ed : arr edge }.

(** [MMG2D_pack] on a mesh that has its adjacencies; the third solution is
    packed but its [np] is not updated (hash_2d.c:853). *)
Definition pack2 (opn : bool) (s : mesh) (sol met : option sol2) : outcome (mesh * option sol2 * option sol2) :=
  '(w, _, _) <- mark2 (m_np s) (m_w s) ;;
  '(a, na, ed) <- pack_edges opn (m_nt s) (m_adj s) (m_a s) ;;
  ed <- edges_ends na w ed ;;
  '(a, adj, nt, _) <- pack_tris (m_nt s) w a (m_adj s) ;;
  sol <- pack_osol (m_np s) w sol ;;
  met <- pack_osol (m_np s) w met ;;
  '(w, np, _) <- pack_verts (m_np s) w ;;
  let sol := match sol with None => None | Some x => Some (mkSol (s_size x) np (s_m x)) end in
  '(w, npnil) <- free_verts np (m_npmax s) w ;;
  '(a, nenil) <- free_tris nt (m_ntmax s) a ;;
  Ret (mkMesh np (m_npmax s) npnil w nt (m_ntmax s) nenil a adj na ed, sol, met).

(** ** The free vertices *)

(** [MMG2D_newPt], mmg2d/zaldy_2d.c:38-54: number of the vertex, or 0. *)
Definition newPt2 (s : mesh) (dat tag : Z) : outcome (mesh * Z) :=
  if m_npnil s =? 0 then Ret (s, 0)
  else
    let k := m_npnil s in
    p <- rd (m_w s) k ;;
    w <- wr (m_w s) k (mkVt tag 0 dat) ;;
    Ret (mkMesh (if m_np s <? k then k else m_np s) (m_npmax s) (w_tmp p) w (m_nt s) (m_ntmax s) (m_nenil s) (m_a s) (m_adj s) (m_na s) (m_ed s), k).

(** The loop at the end of [MMG2D_delPt], mmg2d/zaldy_2d.c:68. *)
Fixpoint last2 (fuel : nat) (w : arr vert) (np : Z) : outcome Z :=
  match fuel with
  | O => Stuck
  | S f => p <- rd w np ;; if negb (w_ok p) && negb (np =? 0) then last2 f w (np - 1) else Ret np
  end.

(** [MMG2D_delPt], mmg2d/zaldy_2d.c:57-70. *)
Definition delPt2 (s : mesh) (k : Z) : outcome mesh :=
  w <- wr (m_w s) k (mkVt G_NUL (m_npnil s) 0) ;;
  np <- (if k =? m_np s then last2 (S (Z.to_nat (m_np s))) w (m_np s) else Ret (m_np s)) ;;
  Ret (mkMesh np (m_npmax s) k w (m_nt s) (m_ntmax s) (m_nenil s) (m_a s) (m_adj s) (m_na s) (m_ed s)).
