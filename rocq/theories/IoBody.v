(** What MMG3D_loadMesh makes of a file whose sections have the right form.
    Used by [PropsIo]. *)
From Coq Require Import String ZArith List Lia Bool.
From Verif Require Import CBase IoModel IoScan IoLoad.
Import ListNotations.
Open Scope Z_scope.
Open Scope list_scope.

Set Implicit Arguments.

Definition bit (b : bool) (x : Z) : Z := if b then x else 0.

(** The tag of a loaded vertex: deleted, required, parallel, corner. *)
Definition vtag (nul req par crn : bool) : Z :=
  bit nul MG_NUL + bit req MG_REQ + bit par MG_PARBDY + bit crn MG_CRN.

(** The tag of a loaded element: reference, ridge, required, parallel. *)
Definition etag (ref geo req par : bool) : Z :=
  bit ref MG_REF + bit geo MG_GEO + bit req MG_REQ + bit par MG_PARBDY.

Lemma vtag_req n r p c : tag_off MG_NUL (tag_on MG_REQ (vtag n r p c)) = vtag false true p c.
Proof. destruct n, r, p, c; reflexivity. Qed.
Lemma vtag_par n r p c : tag_on MG_PARBDY (vtag n r p c) = vtag n r true c.
Proof. destruct n, r, p, c; reflexivity. Qed.
Lemma vtag_crn n r p c : tag_on MG_CRN (vtag n r p c) = vtag n r p true.
Proof. destruct n, r, p, c; reflexivity. Qed.
Lemma vtag_use n r p c : tag_off MG_NUL (vtag n r p c) = vtag false r p c.
Proof. destruct n, r, p, c; reflexivity. Qed.
Lemma etag_geo f g r p : tag_on MG_GEO (etag f g r p) = etag f true r p.
Proof. destruct f, g, r, p; reflexivity. Qed.
Lemma etag_req f g r p : tag_on MG_REQ (etag f g r p) = etag f g true p.
Proof. destruct f, g, r, p; reflexivity. Qed.
Lemma etag_par f g r p : tag_on MG_PARBDY (etag f g r p) = etag f g r true.
Proof. destruct f, g, r, p; reflexivity. Qed.

(** Elements of [w] vertices, all below [n]. *)
Definition elts_ok (w : nat) (n : Z) (l : list (list Z * Z)) : Prop :=
  forall x, In x l -> length (fst x) = w /\ forall v, In v (fst x) -> 0 <= v < n.
Definition widths_ok (w : nat) (l : list (list Z * Z)) : Prop :=
  forall x, In x l -> length (fst x) = w.
Definition nonneg (l : list Z) : Prop := forall i, In i l -> 0 <= i.

Lemma verts_ok w n l : elts_ok w n l -> forall v, In v (verts l) -> 0 <= v < n.
Proof.
  intros H v Hv. unfold verts in Hv. apply in_concat in Hv. destruct Hv as (x & Hx & Hv).
  apply in_map_iff in Hx. destruct Hx as (y & <- & Hy). destruct (H y Hy) as [_ B]. apply B, Hv.
Qed.

Lemma zlen_map A B (f : A -> B) l : zlen (map f l) = zlen l.
Proof. unfold zlen. rewrite map_length. reflexivity. Qed.

Lemma zlen_nonneg A (l : list A) : 0 <= zlen l.
Proof. unfold zlen. lia. Qed.

Lemma nth_le A (l : list A) i x : nth_error l i = Some x -> Z.of_nat i + 1 <= zlen l.
Proof. intros H. pose proof (nth_error_lt _ _ H). unfold zlen. lia. Qed.

Lemma set_tags_idem b e : set_tags (tag_on b) (set_tags (tag_on b) e) = set_tags (tag_on b) e.
Proof.
  unfold set_tags. cbn. rewrite map_map. f_equal. apply map_ext. intros. apply tag_on_idem.
Qed.

Section Body.
Variable D : Type.
Variable d0 : D.
Variable fl : D -> D.
Notation V3 := (D * D * D)%type.
Variable neg : V3 -> V3 -> V3 -> V3 -> bool.
Variable unit : V3 -> V3.
Variable zaldy : Z -> Z -> Z -> option (Z * Z * Z).
Notation tok := (tok D).
Notation pt := (pt D).
Notation hdr := (hdr D).
Notation mesh := (mesh D).

(** What a file says: vertices and elements with their references, and the
    numbers of the marked ones. *)
Record content : Type := mkContent
  { c_pts : list (V3 * Z); c_reqv : list Z; c_parv : list Z; c_cor : list Z;
    c_tri : list (list Z * Z); c_reqt : list Z; c_part : list Z;
    c_quad : list (list Z * Z); c_reqq : list Z; c_parq : list Z;
    c_edge : list (list Z * Z); c_rid : list Z; c_reqa : list Z; c_para : list Z;
    c_tet : list (list Z * Z); c_reqe : list Z; c_pare : list Z;
    c_pri : list (list Z * Z); c_nor : list V3; c_nat : list (Z * Z) }.

Definition rows (c : content) (k : key) : list (list tok) :=
  match k with
  | KVert => map (@prow D) (c_pts c)
  | KReqV => map (@one D) (c_reqv c) | KParV => map (@one D) (c_parv c)
  | KCor => map (@one D) (c_cor c)
  | KTri => map (@vrow D) (c_tri c)
  | KReqT => map (@one D) (c_reqt c) | KParT => map (@one D) (c_part c)
  | KQuad => map (@vrow D) (c_quad c)
  | KReqQ => map (@one D) (c_reqq c) | KParQ => map (@one D) (c_parq c)
  | KTet => map (@vrow D) (c_tet c)
  | KPri => map (@vrow D) (c_pri c)
  | KReqE => map (@one D) (c_reqe c) | KParE => map (@one D) (c_pare c)
  | KEdge => map (@vrow D) (c_edge c)
  | KReqA => map (@one D) (c_reqa c) | KParA => map (@one D) (c_para c)
  | KRid => map (@one D) (c_rid c)
  | KNor => map (@v3 D) (c_nor c)
  | KNat => map (@irow D) (c_nat c)
  end.

Definition holds (h : hdr) (k : key) (r : list (list tok)) : Prop :=
  exists tl, h_sec h k = (zlen r, concat r ++ tl).

(** The sections can be read without leaving the arrays. *)
Record readable (npmax : Z) (c : content) : Prop := mkReadable
  { rd_reqv : nonneg (c_reqv c); rd_parv : nonneg (c_parv c); rd_cor : nonneg (c_cor c);
    rd_tri : widths_ok 3 (c_tri c); rd_reqt : nonneg (c_reqt c); rd_part : nonneg (c_part c);
    rd_quad : widths_ok 4 (c_quad c); rd_reqq : nonneg (c_reqq c); rd_parq : nonneg (c_parq c);
    rd_edge : widths_ok 2 (c_edge c); rd_rid : nonneg (c_rid c);
    rd_reqa : nonneg (c_reqa c); rd_para : nonneg (c_para c);
    rd_tet : elts_ok 4 (npmax + 1) (c_tet c); rd_reqe : nonneg (c_reqe c);
    rd_pare : nonneg (c_pare c);
    rd_pri : elts_ok 6 (npmax + 1) (c_pri c);
    rd_nat : forall x, In x (c_nat c) -> 0 <= fst x /\ snd x <= zlen (c_nor c) }.

(** The vertex [k] belongs to a tetrahedron or to a prism. *)
Definition used (c : content) (k : Z) : bool := mem k (verts (c_tet c)) || mem k (verts (c_pri c)).

Definition normal (iso : bool) (ver : Z) (c : content) (k : Z) : V3 :=
  if iso || (zlen (c_nor c) =? 0) then (d0, d0, d0)
  else given (fun i => unit (g3 (gnor fl ver) (nth (Z.to_nat (i - 1)) (c_nor c) (d0, d0, d0))))
         k (c_nat c) (d0, d0, d0).

(** The coordinates of the vertex [k]. *)
Definition coord (ver : Z) (c : content) (k : Z) : V3 :=
  if k <=? 0 then (d0, d0, d0) else
  match nth_error (c_pts c) (Z.to_nat (k - 1)) with
  | Some x => g3 (gver fl ver) (fst x)
  | None => (d0, d0, d0)
  end.

Definition turn (ver : Z) (c : content) (v : list Z) : list Z :=
  match v with
  | [i; j; k; l] =>
      if neg (coord ver c i) (coord ver c j) (coord ver c k) (coord ver c l) then [i; j; l; k] else v
  | _ => v
  end.

(** The mesh is what the file says. *)
Record loaded (iso : bool) (ver : Z) (c : content) (m : mesh) : Prop := mkLoaded
  { ld_np : m_np m = zlen (c_pts c);
    ld_pts : forall i x, nth_error (c_pts c) i = Some x ->
      let k := Z.of_nat i + 1 in
      aget (m_pt m) k =
      mkPt (g3 (gver fl ver) (fst x)) (normal iso ver c k) (Z.abs (snd x)) 0 0 false
           (vtag (negb (mem k (c_reqv c)) && negb (used c k)) (mem k (c_reqv c))
                 (mem k (c_parv c)) (mem k (c_cor c)));
    ld_nt : m_nt m = zlen (c_tri c);
    ld_tri : forall i x, nth_error (c_tri c) i = Some x ->
      let k := Z.of_nat i + 1 in
      aget (m_tri m) k = mkElt (fst x) (Z.abs (snd x))
        (repeat (etag false false (mem k (c_reqt c)) (mem k (c_part c))) 3);
    ld_nq : m_nq m = zlen (c_quad c);
    ld_quad : forall i x, nth_error (c_quad c) i = Some x ->
      let k := Z.of_nat i + 1 in
      aget (m_quad m) k = mkElt (fst x) (Z.abs (snd x))
        (repeat (etag false false (mem k (c_reqq c)) (mem k (c_parq c))) 4);
    ld_na : m_na m = zlen (c_edge c);
    ld_edge : forall i x, nth_error (c_edge c) i = Some x ->
      let k := Z.of_nat i + 1 in
      aget (m_edge m) k = mkElt (fst x) (Z.abs (snd x))
        [etag true (mem k (c_rid c)) (mem k (c_reqa c)) (mem k (c_para c))];
    ld_ne : m_ne m = zlen (c_tet c);
    ld_tet : forall i x, nth_error (c_tet c) i = Some x ->
      let k := Z.of_nat i + 1 in
      aget (m_tet m) k = mkElt (turn ver c (fst x)) (Z.abs (snd x))
        [etag false false (mem k (c_reqe c)) (mem k (c_pare c))];
    ld_npr : m_npr m = zlen (c_pri c);
    ld_pri : forall i x, nth_error (c_pri c) i = Some x ->
      aget (m_pri m) (Z.of_nat i + 1) = mkElt (fst x) (Z.abs (snd x)) [];
    ld_len : m_np m < alen (m_pt m) /\ m_ne m < alen (m_tet m) /\
             (m_nt m = 0 \/ m_nt m < alen (m_tri m)) /\ (m_nq m = 0 \/ m_nq m < alen (m_quad m)) /\
             (m_na m = 0 \/ m_na m < alen (m_edge m)) /\ (m_npr m = 0 \/ m_npr m < alen (m_pri m)) }.

Lemma set_tag_idem b (p : pt) : set_tag (tag_on b) (set_tag (tag_on b) p) = set_tag (tag_on b) p.
Proof. unfold set_tag. cbn. rewrite tag_on_idem. reflexivity. Qed.

Lemma set_req_idem (p : pt) :
  let g := set_tag (fun t => tag_off MG_NUL (tag_on MG_REQ t)) in g (g p) = g p.
Proof. unfold set_tag. cbn. rewrite tag_off_on_idem. reflexivity. Qed.

(** The marks of a list of elements, in one pass. *)
Lemma marks_elts h k L lim b (a : arr elt) :
  holds h k (map (@one D) L) -> nonneg L -> lim < alen a ->
  exists a', marks (h_sec h k) lim (set_tags (tag_on b)) a = Ok a' /\ alen a' = alen a /\
  forall i, i <= lim -> aget a' i = if mem i L then set_tags (tag_on b) (aget a i) else aget a i.
Proof.
  intros (tl & E) N H. rewrite E, zlen_map.
  destruct (@marks_ok D _ (set_tags (tag_on b)) (set_tags_idem b) lim L a tl N H) as (a' & R & La & V).
  exists a'. split; [exact R|]. split; [exact La|]. intros i Hi. rewrite V.
  destruct (Z.leb_spec i lim); [|lia]. rewrite andb_true_r. reflexivity.
Qed.

Theorem load_body_ok iso h c npmax ntmax nemax :
  (forall k, holds h k (rows c k)) ->
  c_pts c <> [] -> c_tet c <> [] ->
  zaldy (zlen (c_pts c)) (zlen (c_tri c)) (zlen (c_tet c)) = Some (npmax, ntmax, nemax) ->
  zlen (c_pts c) <= npmax -> zlen (c_tri c) <= ntmax -> zlen (c_tet c) <= nemax ->
  readable npmax c ->
  exists m, load_body d0 fl neg unit zaldy iso h = Ok m /\ loaded iso (h_ver h) c m.
Proof.
  intros H NP NE ZA BP BT BE R.
  assert (HN : forall k, fst (h_sec h k) = zlen (rows c k)).
  { intros k. destruct (H k) as [tl ->]. reflexivity. }
  unfold load_body. rewrite !HN. cbn [rows]. rewrite !zlen_map.
  assert (P1 : zlen (c_pts c) =? 0 = false).
  { destruct (c_pts c); [contradiction|]. unfold zlen. cbn. reflexivity. }
  assert (P2 : zlen (c_tet c) =? 0 = false).
  { destruct (c_tet c); [contradiction|]. unfold zlen. cbn. reflexivity. }
  rewrite P1, P2. cbn [orb]. rewrite ZA.
  rewrite (proj2 (Z.ltb_ge _ _) BP), (proj2 (Z.ltb_ge _ _) BT), (proj2 (Z.ltb_ge _ _) BE). cbn [orb].
  (* vertices *)
  destruct (H KVert) as [tl EV]. rewrite EV. cbn [snd rows]. clear EV.
  destruct (@load_pts D d0 fl (h_ver h) (c_pts c) npmax tl BP) as (p1 & E1 & L1 & V1 & V0).
  rewrite E1. cbn [rbind]. clear E1 tl.
  assert (LP : zlen (c_pts c) < alen p1) by lia.
  destruct (H KReqV) as [tl ->]. cbn [rows]. rewrite zlen_map.
  destruct (@marks_ok D _ (set_tag (fun t => tag_off MG_NUL (tag_on MG_REQ t))) set_req_idem
              (zlen (c_pts c)) (c_reqv c) p1 tl (rd_reqv R) LP) as (p2 & E & L2 & V2).
  rewrite E. cbn [rbind]. clear E tl. rewrite <- L2 in LP.
  destruct (H KParV) as [tl ->]. cbn [rows]. rewrite zlen_map.
  destruct (@marks_ok D _ (set_tag (tag_on MG_PARBDY)) (set_tag_idem MG_PARBDY)
              (zlen (c_pts c)) (c_parv c) p2 tl (rd_parv R) LP) as (p3 & E & L3 & V3).
  rewrite E. cbn [rbind]. clear E tl. rewrite <- L3 in LP.
  destruct (H KCor) as [tl ->]. cbn [rows]. rewrite zlen_map.
  destruct (@marks_ok D _ (set_tag (tag_on MG_CRN)) (set_tag_idem MG_CRN)
              (zlen (c_pts c)) (c_cor c) p3 tl (rd_cor R) LP) as (p4 & E & L4 & V4).
  rewrite E. cbn [rbind]. clear E tl. rewrite <- L4 in LP.
  (* triangles *)
  destruct (H KTri) as [tl EV]. rewrite EV. cbn [snd rows]. clear EV.
  destruct (@load_elts D 3 3 (fun e => e) (c_tri c) (table (zlen (c_tri c)) (elt0 3 3)) tl
              (rd_tri R) (table_len (c_tri c) (elt0 3 3)) (table_get _ _)) as (f1 & E & Lf1 & Vf1 & _).
  rewrite E. cbn [rbind]. clear E tl.
  match goal with |- context [rbind (if zlen (c_tri c) =? 0 then ?lhs else ?rhs) _] =>
    assert (Q : exists f3, (if zlen (c_tri c) =? 0 then lhs else rhs) = Ok f3 /\ alen f3 = alen f1 /\
      forall i x, nth_error (c_tri c) i = Some x -> let k := Z.of_nat i + 1 in
      aget f3 k = mkElt (fst x) (Z.abs (snd x))
        (repeat (etag false false (mem k (c_reqt c)) (mem k (c_part c))) 3)) end.
  { destruct (Z.eqb_spec (zlen (c_tri c)) 0) as [Z0|Z0].
    - exists f1. split; [reflexivity|]. split; [reflexivity|]. intros i x Hx. exfalso.
      pose proof (nth_le _ _ Hx). lia.
    - assert (LF : zlen (c_tri c) < alen f1).
      { rewrite Lf1. destruct (table_len (c_tri c) (elt0 3 3)) as [|E0]; [assumption|].
        rewrite E0 in Z0. exfalso. apply Z0. reflexivity. }
      destruct (@marks_elts h KReqT (c_reqt c) _ MG_REQ f1 (H KReqT) (rd_reqt R) LF) as (f2 & E2 & Lf2 & Vf2).
      rewrite E2. cbn [rbind]. rewrite <- Lf2 in LF.
      destruct (@marks_elts h KParT (c_part c) _ MG_PARBDY f2 (H KParT) (rd_part R) LF) as (f3 & E3 & Lf3 & Vf3).
      exists f3. split; [exact E3|]. split; [congruence|]. intros i x Hx. cbv zeta. set (k := Z.of_nat i + 1).
      pose proof (nth_le _ _ Hx) as Hk. fold k in Hk. rewrite (Vf3 k Hk), (Vf2 k Hk).
      unfold k. rewrite (Vf1 _ _ Hx). destruct (mem _ (c_reqt c)), (mem _ (c_part c)); reflexivity. }
  destruct Q as (f3 & E & Lf3 & Vf3). rewrite E. cbn [rbind]. clear E.
  (* quadrilaterals *)
  destruct (H KQuad) as [tl EV]. rewrite EV. cbn [snd rows]. clear EV.
  destruct (@load_elts D 4 4 (fun e => e) (c_quad c) (table (zlen (c_quad c)) (elt0 4 4)) tl
              (rd_quad R) (table_len (c_quad c) (elt0 4 4)) (table_get _ _)) as (q1 & E & Lq1 & Vq1 & _).
  rewrite E. cbn [rbind]. clear E tl.
  match goal with |- context [rbind (if zlen (c_quad c) =? 0 then ?lhs else ?rhs) _] =>
    assert (Q : exists q3, (if zlen (c_quad c) =? 0 then lhs else rhs) = Ok q3 /\ alen q3 = alen q1 /\
      forall i x, nth_error (c_quad c) i = Some x -> let k := Z.of_nat i + 1 in
      aget q3 k = mkElt (fst x) (Z.abs (snd x))
        (repeat (etag false false (mem k (c_reqq c)) (mem k (c_parq c))) 4)) end.
  { destruct (Z.eqb_spec (zlen (c_quad c)) 0) as [Z0|Z0].
    - exists q1. split; [reflexivity|]. split; [reflexivity|]. intros i x Hx. exfalso.
      pose proof (nth_le _ _ Hx). lia.
    - assert (LF : zlen (c_quad c) < alen q1).
      { rewrite Lq1. destruct (table_len (c_quad c) (elt0 4 4)) as [|E0]; [assumption|].
        rewrite E0 in Z0. exfalso. apply Z0. reflexivity. }
      destruct (@marks_elts h KReqQ (c_reqq c) _ MG_REQ q1 (H KReqQ) (rd_reqq R) LF) as (f2 & E2 & Lf2 & Vf2).
      rewrite E2. cbn [rbind]. rewrite <- Lf2 in LF.
      destruct (@marks_elts h KParQ (c_parq c) _ MG_PARBDY f2 (H KParQ) (rd_parq R) LF) as (q3 & E3 & Lq3 & Vq3).
      exists q3. split; [exact E3|]. split; [congruence|]. intros i x Hx. cbv zeta. set (k := Z.of_nat i + 1).
      pose proof (nth_le _ _ Hx) as Hk. fold k in Hk. rewrite (Vq3 k Hk), (Vf2 k Hk).
      unfold k. rewrite (Vq1 _ _ Hx). destruct (mem _ (c_reqq c)), (mem _ (c_parq c)); reflexivity. }
  destruct Q as (q3 & E & Lq3 & Vq3). rewrite E. cbn [rbind]. clear E.
  (* edges *)
  destruct (H KEdge) as [tl EV]. rewrite EV. cbn [snd rows]. clear EV.
  destruct (@load_elts D 2 1 (set_tags (tag_on MG_REF)) (c_edge c) (table (zlen (c_edge c)) (elt0 2 1)) tl
              (rd_edge R) (table_len (c_edge c) (elt0 2 1)) (table_get _ _)) as (a1 & E & La1 & Va1 & _).
  rewrite E. cbn [rbind]. clear E tl.
  match goal with |- context [rbind (if zlen (c_edge c) =? 0 then ?lhs else ?rhs) _] =>
    assert (Q : exists a4, (if zlen (c_edge c) =? 0 then lhs else rhs) = Ok a4 /\ alen a4 = alen a1 /\
      forall i x, nth_error (c_edge c) i = Some x -> let k := Z.of_nat i + 1 in
      aget a4 k = mkElt (fst x) (Z.abs (snd x))
        [etag true (mem k (c_rid c)) (mem k (c_reqa c)) (mem k (c_para c))]) end.
  { destruct (Z.eqb_spec (zlen (c_edge c)) 0) as [Z0|Z0].
    - exists a1. split; [reflexivity|]. split; [reflexivity|]. intros i x Hx. exfalso.
      pose proof (nth_le _ _ Hx). lia.
    - assert (LF : zlen (c_edge c) < alen a1).
      { rewrite La1. destruct (table_len (c_edge c) (elt0 2 1)) as [|E0]; [assumption|].
        rewrite E0 in Z0. exfalso. apply Z0. reflexivity. }
      destruct (@marks_elts h KRid (c_rid c) _ MG_GEO a1 (H KRid) (rd_rid R) LF) as (f1' & E1 & Lf1' & Vf1').
      rewrite E1. cbn [rbind]. rewrite <- Lf1' in LF.
      destruct (@marks_elts h KReqA (c_reqa c) _ MG_REQ f1' (H KReqA) (rd_reqa R) LF) as (f2 & E2 & Lf2 & Vf2).
      rewrite E2. cbn [rbind]. rewrite <- Lf2 in LF.
      destruct (@marks_elts h KParA (c_para c) _ MG_PARBDY f2 (H KParA) (rd_para R) LF) as (a4 & E3 & La4 & Va4).
      exists a4. split; [exact E3|]. split; [congruence|]. intros i x Hx. cbv zeta. set (k := Z.of_nat i + 1).
      pose proof (nth_le _ _ Hx) as Hk. fold k in Hk. rewrite (Va4 k Hk), (Vf2 k Hk), (Vf1' k Hk).
      unfold k. rewrite (Va1 _ _ Hx).
      destruct (mem _ (c_rid c)), (mem _ (c_reqa c)), (mem _ (c_para c)); reflexivity. }
  destruct Q as (a4 & E & La4 & Va4). rewrite E. cbn [rbind]. clear E.
  (* tetrahedra *)
  assert (AP : alen p4 = npmax + 1) by congruence.
  destruct (H KTet) as [tl EV]. rewrite EV. cbn [snd rows]. clear EV.
  destruct (@load_tets D neg (c_tet c) p4 nemax tl) as (p5 & t1 & E & L5 & V5 & Lt1 & Vt1).
  { intros x Hx. apply (rd_tet R x Hx). }
  { rewrite AP. exact (verts_ok (rd_tet R)). }
  { exact BE. }
  rewrite E. cbn [rbind]. clear E tl.
  assert (LF : zlen (c_tet c) < alen t1) by lia.
  destruct (@marks_elts h KReqE (c_reqe c) _ MG_REQ t1 (H KReqE) (rd_reqe R) LF) as (t2 & E & Lt2 & Vt2).
  rewrite E. cbn [rbind]. clear E. rewrite <- Lt2 in LF.
  destruct (@marks_elts h KParE (c_pare c) _ MG_PARBDY t2 (H KParE) (rd_pare R) LF) as (t3 & E & Lt3 & Vt3).
  rewrite E. cbn [rbind]. clear E.
  (* prisms *)
  destruct (H KPri) as [tl EV]. rewrite EV. cbn [snd rows]. clear EV.
  destruct (@load_pris D (c_pri c) p5 (table (zlen (c_pri c)) (elt0 6 0)) tl) as (p6 & r1 & E & L6 & V6 & Lr1 & Vr1).
  { intros x Hx. apply (rd_pri R x Hx). }
  { rewrite L5, AP. exact (verts_ok (rd_pri R)). }
  { apply table_len. }
  { apply table_get. }
  rewrite E. cbn [rbind]. clear E tl.
  (* the vertices before the normals *)
  assert (VP : forall i x, nth_error (c_pts c) i = Some x -> let k := Z.of_nat i + 1 in
    aget p6 k = mkPt (g3 (gver fl (h_ver h)) (fst x)) (d0, d0, d0) (Z.abs (snd x)) 0 0 false
       (vtag (negb (mem k (c_reqv c)) && negb (used c k)) (mem k (c_reqv c))
             (mem k (c_parv c)) (mem k (c_cor c)))).
  { intros i x Hx. cbv zeta. set (k := Z.of_nat i + 1). pose proof (nth_le _ _ Hx) as Hk. fold k in Hk.
    rewrite V6, V5, V4, V3, V2. unfold k. rewrite (V1 _ _ Hx). fold k. unfold newpt.
    rewrite (proj2 (Z.leb_le _ _) Hk), !andb_true_r. unfold used.
    change MG_NUL with (vtag true false false false).
    destruct (mem k (c_reqv c)), (mem k (c_parv c)), (mem k (c_cor c)), (mem k (verts (c_tet c))),
      (mem k (verts (c_pri c))); reflexivity. }
  (* normals *)
  match goal with |- context [rbind (if ?b then ?lhs else ?rhs) _] =>
    assert (Q : exists p7, (if b then lhs else rhs) = Ok p7 /\ alen p7 = npmax + 1 /\
      forall k, k <= zlen (c_pts c) -> p_n (aget p6 k) = (d0, d0, d0) ->
        aget p7 k = set_n (normal iso (h_ver h) c k) (aget p6 k)) end.
  { assert (L6' : alen p6 = npmax + 1) by congruence. unfold normal.
    assert (EB : negb (0 <? zlen (c_nor c)) = (zlen (c_nor c) =? 0)).
    { pose proof (zlen_nonneg (c_nor c)). destruct (Z.ltb_spec 0 (zlen (c_nor c))), (Z.eqb_spec (zlen (c_nor c)) 0); lia || reflexivity. }
    rewrite EB. destruct (iso || (zlen (c_nor c) =? 0)).
    - exists p6. split; [reflexivity|]. split; [exact L6'|]. intros k Hk En.
      destruct (aget p6 k). cbn in *. subst. reflexivity.
    - destruct (H KNor) as [tl EV]. rewrite EV. cbn [snd rows]. clear EV.
      destruct (@load_nors D d0 fl unit (h_ver h) (c_nor c) tl) as (nor & E & Ln & Vn).
      rewrite E. cbn [rbind]. clear E tl.
      destruct (H KNat) as [tl EV]. rewrite EV. cbn [snd rows]. clear EV.
      destruct (@load_nats D (zlen (c_pts c)) nor (c_nat c) p6 tl) as (p7 & E & L7 & V7).
      { lia. }
      { intros x Hx. destruct (rd_nat R x Hx). lia. }
      rewrite E. cbn [rbind]. exists p7. split; [reflexivity|]. split; [congruence|].
      intros k Hk En. rewrite V7 by exact Hk. rewrite En. f_equal.
      assert (GE : forall l acc, (forall x, In x l -> 0 <= fst x /\ snd x <= zlen (c_nor c)) ->
        given (aget nor) k l acc =
        given (fun i => unit (g3 (gnor fl (h_ver h)) (nth (Z.to_nat (i - 1)) (c_nor c) (d0, d0, d0)))) k l acc).
      { induction l as [|y l IH]; intros acc Hl; [reflexivity|]. unfold given in *. cbn [fold_left].
        rewrite IH by (intros; apply Hl; right; assumption).
        destruct (fst y =? k); [|reflexivity].
        destruct (Z.ltb_spec 0 (snd y)) as [Hy|]; [|reflexivity]. cbn [andb].
        f_equal. destruct (Hl y (or_introl eq_refl)) as [_ Hy2].
        destruct (nth_error (c_nor c) (Z.to_nat (snd y - 1))) as [n|] eqn:En'.
        - rewrite (nth_error_nth _ _ _ En'). pose proof (Vn _ _ En') as V.
          replace (Z.of_nat (Z.to_nat (snd y - 1)) + 1) with (snd y) in V by lia. exact V.
        - apply nth_error_None in En'. unfold zlen in Hy2. lia. }
      apply GE. exact (rd_nat R). }
  destruct Q as (p7 & E & L7 & V7). rewrite E. cbn [rbind]. clear E.
  eexists. split; [reflexivity|].
  assert (TL : forall w u l, zlen l = 0 \/ zlen l < alen (table (@zlen (list Z * Z) l) (elt0 w u))).
  { intros w u l. destruct (table_len l (elt0 w u)) as [T| ->]; [right; exact T | left; reflexivity]. }
  constructor; cbn [m_np m_pt m_nt m_tri m_nq m_quad m_na m_edge m_ne m_tet m_npr m_pri]; try reflexivity.
  - intros i x Hx. cbv zeta. set (k := Z.of_nat i + 1). pose proof (VP i x Hx) as EP. cbv zeta in EP. fold k in EP.
    pose proof (nth_le _ _ Hx) as Hk. fold k in Hk.
    rewrite V7; [| exact Hk | rewrite EP; reflexivity]. rewrite EP. reflexivity.
  - exact Vf3.
  - exact Vq3.
  - exact Va4.
  - intros i x Hx. cbv zeta. set (k := Z.of_nat i + 1). pose proof (nth_le _ _ Hx) as Hk. fold k in Hk.
    rewrite (Vt3 k Hk), (Vt2 k Hk). unfold k. rewrite (Vt1 _ _ Hx).
    assert (ET : turned neg (aget p4) (fst x) = turn (h_ver h) c (fst x)).
    { assert (C4 : forall v, p_c (aget p4 v) = p_c (aget p1 v)).
      { intros v. rewrite V4, V3, V2. repeat match goal with |- context [if ?b then _ else _] => destruct b end; reflexivity. }
      assert (C1 : forall v, p_c (aget p1 v) = coord (h_ver h) c v).
      { intros v. unfold coord. destruct (nth_error (c_pts c) (Z.to_nat (v - 1))) as [y|] eqn:Ey.
        - destruct (Z.leb_spec v 0).
          + rewrite V0 by lia. reflexivity.
          + pose proof (V1 _ _ Ey) as V. replace (Z.of_nat (Z.to_nat (v - 1)) + 1) with v in V by lia.
            rewrite V. reflexivity.
        - apply nth_error_None in Ey. rewrite V0 by (unfold zlen; lia).
          destruct (v <=? 0); reflexivity. }
      unfold turned, turn. destruct (fst x) as [|v1 [|v2 [|v3 [|v4 [|]]]]]; try reflexivity.
      rewrite !C4, !C1. reflexivity. }
    rewrite ET. destruct (mem _ (c_reqe c)), (mem _ (c_pare c)); reflexivity.
  - exact Vr1.
  - repeat split; try lia. all: rewrite ?Lf3, ?Lf1, ?Lq3, ?Lq1, ?La4, ?La1, ?Lr1; try apply TL.
Qed.

End Body.
