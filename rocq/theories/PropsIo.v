(** C49-C53: what is written to a Medit file is what is read back, in ASCII and
    in binary; files whose sections come in another order; files that make the
    loader leave its arrays or never end. *)
From Coq Require Import String ZArith List Lia Bool.
From Verif Require Import CBase IoModel IoScan IoLoad IoBody IoSave IoTrip IoSame.
Import ListNotations.
Open Scope Z_scope.
Open Scope list_scope.

Set Implicit Arguments.

(** The counters of a mesh that holds nothing. *)
Definition empty : key -> Z := fun _ => 0.

Section Theorems.
Variable D : Type.
Variable d0 : D.
Variable fl : D -> D.
Notation V3 := (D * D * D)%type.
Variable neg : V3 -> V3 -> V3 -> V3 -> bool.
Variable unit : V3 -> V3.
Variable zaldy : Z -> Z -> Z -> option (Z * Z * Z).
Notation mesh := (mesh D).

(** The memory is large enough for [np] vertices, [nt] triangles and [ne]
    tetrahedra. *)
Definition fits (np nt ne : Z) : Prop :=
  exists npmax ntmax nemax, zaldy np nt ne = Some (npmax, ntmax, nemax) /\
    np <= npmax /\ nt <= ntmax /\ ne <= nemax.

Definition fits_mesh (m : mesh) : Prop :=
  fits (zlen (used_vertices m)) (m_nt m) (zlen (live (m_ne m) (m_tet m))).

Lemma told_load g par iso (m : mesh) (h : hdr D) :
  valid m -> live (m_ne m) (m_tet m) <> [] -> fits_mesh m ->
  h_ver h = 2 -> (forall k, holds h k (rows (told g par m) k)) ->
  exists m', load_body d0 fl neg unit zaldy iso h = Ok m' /\ reread d0 neg unit g par iso m m'.
Proof.
  intros V NE (npmax & ntmax & nemax & ZA & F1 & F2 & F3) HV H.
  assert (EP : zlen (c_pts (told g par m)) = zlen (used_vertices m)).
  { destruct par; cbn; rewrite !zlen_map; reflexivity. }
  assert (ET : zlen (c_tri (told g par m)) = m_nt m).
  { replace (c_tri (told g par m)) with (map (renum m) (elts (m_nt m) (m_tri m))) by (destruct par; reflexivity).
    rewrite zlen_map. unfold zlen, elts. rewrite map_length, zs_length. destruct (va_nt V). lia. }
  assert (EE : zlen (c_tet (told g par m)) = zlen (live (m_ne m) (m_tet m))).
  { destruct par; cbn; rewrite zlen_map; reflexivity. }
  assert (R : readable npmax (told g par m)).
  { unfold told. pose proof (readable_printed g (content_readable V F1)) as R.
    destruct par; [exact R | apply readable_no_par; exact R]. }
  destruct (@load_body_ok D d0 fl neg unit zaldy iso h (told g par m) npmax ntmax nemax) as (m' & E & L).
  - exact H.
  - intros E. apply (f_equal (@zlen _)) in E. rewrite EP in E. apply zlen_nil in E.
    destruct (live (m_ne m) (m_tet m)) as [|e l] eqn:EL; [contradiction|].
    destruct (va_tet V e) as [W U]; [rewrite EL; left; reflexivity|].
    destruct (e_v e) as [|v r]; [discriminate W|]. specialize (U v (or_introl eq_refl)).
    rewrite E in U. destruct U.
  - intros E. apply (f_equal (@zlen _)) in E. rewrite EE in E. apply zlen_nil in E. contradiction.
  - rewrite EP, ET, EE. exact ZA.
  - rewrite EP. exact F1.
  - rewrite ET. exact F2.
  - rewrite EE. exact F3.
  - exact R.
  - exists m'. split; [exact E|]. rewrite HV in L. apply loaded_same with (fl := fl); assumption.
Qed.

Lemma v3_number R : (forall r, In r R -> exists v : V3, r = v3 v) -> Forall (@number_tok D) (concat R).
Proof.
  induction R as [|r R IH]; intros H; [constructor|]. cbn. apply Forall_app. split.
  - destruct (H r (or_introl eq_refl)) as [[[x y] z] ->]. repeat constructor.
  - apply IH. intros; apply H. right. assumption.
Qed.

Lemma int2_number R : (forall r, In r R -> exists i j, r = [TI i; TI j]) -> Forall (@number_tok D) (concat R).
Proof.
  induction R as [|r R IH]; intros H; [constructor|]. cbn. apply Forall_app. split.
  - destruct (H r (or_introl eq_refl)) as (i & j & ->). repeat constructor.
  - apply IH. intros; apply H. right. assumption.
Qed.

Lemma scan_head v r (h : hdr D) :
  scan ([TW "MeshVersionFormatted"; TI v; TW "Dimension"; TI 3]%string ++ r) h = scan r (mkHdr v (h_sec h)).
Proof. reflexivity. Qed.

Lemma scan_end (h : hdr D) : scan [TW "End"%string] h = Ok h.
Proof. reflexivity. Qed.

(** C49.  A mesh saved in an ASCII file and read again into an empty mesh. *)
Theorem ascii_round_trip pr iso ver (m : mesh) :
  valid m -> live (m_ne m) (m_tet m) <> [] -> fits_mesh m ->
  exists f m', save_ascii pr m = Ret f /\
    load_ascii d0 fl neg unit zaldy iso ver empty f = Ok m' /\
    reread d0 neg unit pr true iso m m'.
Proof.
  intros V NE FM.
  destruct (sections_ok false V) as (nn & nr & nat & ntg & tg & tgat & E & Enr & Fnat & Eon & Et1 & Et2 & Enat & F1 & F2).
  unfold save_ascii. rewrite E. cbn [bind].
  match goal with |- context [Ret ?f] => set (file := f) end.
  assert (E2 : rows (content_of m) KNor = nr) by congruence.
  destruct (@ascii_found D pr (negb (m_xp m =? 0)) nn nr nat ntg tg tgat (content_of m)
              (mkHdr 2 (h_sec (hdr0 ver empty file))) [TW "End"%string]) as (h' & S & HV & HH).
  - apply content_marks_empty. exact V.
  - intros B. destruct Eon as [E3 E4]; [destruct (Z.eqb_spec (m_xp m) 0); [discriminate|assumption]|].
    rewrite E2, <- E4. repeat split; assumption || congruence.
  - intros B. cbn [content_of c_nor c_nat]. unfold normals. apply negb_false_iff in B. rewrite B. split; reflexivity.
  - rewrite <- E2. apply rows_number.
  - apply int2_number. exact Fnat.
  - apply v3_number. exact F1.
  - apply int2_number. exact F2.
  - intros []; reflexivity.
  - destruct (@told_load pr true iso m h' V NE FM) as (m' & L & R).
    + exact HV.
    + exact HH.
    + exists file, m'. split; [reflexivity|]. split; [|exact R].
      unfold load_ascii. unfold file at 1. rewrite scan_head, S, scan_end. exact L.
Qed.

(** The numbers of a binary file are those of the mesh. *)
Lemma as_printed_id (c : content D) : as_printed (fun d => d) c = c.
Proof.
  assert (I : forall v : V3, pr3 (fun d => d) v = v) by (intros [[x y] z]; reflexivity).
  destruct c. unfold as_printed. cbn. f_equal.
  - rewrite <- (map_id c_pts) at 2. apply map_ext. intros [v r]. cbn. rewrite I. reflexivity.
  - rewrite <- (map_id c_nor) at 2. apply map_ext. exact I.
Qed.

(** C50, the part that holds.  Binary files: nothing is lost but the parallel
    marks. *)
Theorem binary_round_trip_partial iso fuel (m : mesh) :
  valid m -> live (m_ne m) (m_tet m) <> [] -> fits_mesh m -> (24 <= fuel)%nat ->
  exists f m', save_binary m = Ret f /\
    load_binary d0 fl neg unit zaldy iso empty fuel f = Ok m' /\
    reread d0 neg unit (fun d => d) false iso m m'.
Proof.
  intros V NE FM HF.
  destruct (sections_ok true V) as (nn & nr & nat & ntg & tg & tgat & E & Enr & Fnat & Eon & Et1 & Et2 & Enat & F1 & F2).
  unfold save_binary. rewrite E. cbn [bind].
  assert (E2 : rows (content_of m) KNor = nr) by congruence.
  set (lay := layout (negb (m_xp m =? 0)) nn nr nat ntg tg tgat (content_of m)).
  set (l := filter (fun s => s_on s && negb (s_asc s)) lay).
  set (file := [TI 1; TI 2; TI 3; TI 20; TI 3] ++ btext 20 l).
  assert (LL : (length l <= 22)%nat).
  { unfold l. transitivity (length lay); [|reflexivity]. clear. induction lay as [|s r IH]; [cbn; lia|].
    cbn [filter]. destruct (s_on s && negb (s_asc s)); cbn [length]; lia. }
  destruct (@binary_found D (negb (m_xp m =? 0)) nn nr nat ntg tg tgat (content_of m)
              (hdr0 2 empty file) [TI 1; TI 2; TI 3; TI 20; TI 3] (fuel - 2 - length l)) as (h' & S & HV & HH).
  - apply content_marks_empty. exact V.
  - apply content_widths. exact V.
  - intros B. destruct Eon as [E3 E4]; [destruct (Z.eqb_spec (m_xp m) 0); [discriminate|assumption]|].
    rewrite E2, <- E4. repeat split; assumption || congruence.
  - intros B. cbn [content_of c_nor c_nat]. unfold normals. apply negb_false_iff in B. rewrite B. split; reflexivity.
  - exact Et1.
  - exact Et2.
  - exact F1.
  - exact F2.
  - intros []; reflexivity.
  - destruct (@told_load (fun d => d) false iso m h' V NE FM) as (m' & L & R).
    + exact HV.
    + unfold told. rewrite as_printed_id. exact HH.
    + exists file, m'. split; [reflexivity|]. split; [|exact R].
      unfold load_binary, file at 1. cbn [app bint rbind Z.eqb].
      assert (EF : fuel = Datatypes.S (Datatypes.S (length l) + (fuel - 2 - length l))) by lia.
      rewrite EF. cbn [bscan]. cbn [Z.eqb andb bint rbind].
      change (tot [TI 1; TI 2; TI 3; TI 20; TI 3]) with 20 in S.
      unfold binary_on in S. fold lay in S. fold l in S. fold file in S.
      rewrite S. cbn [rbind]. exact L.
Qed.

(** C51.  The words that announce a section: only the first letters matter, and
    the sections of the meshes of high order are not mistaken for those of the
    elements. *)
Theorem keywords t :
  (word_of ("Vertices" ++ t) = WKey KVert /\ word_of ("RequiredVertices" ++ t) = WKey KReqV /\
   word_of ("ParallelVertices" ++ t) = WKey KParV /\ word_of ("Corners" ++ t) = WKey KCor /\
   word_of "Triangles" = WKey KTri /\ word_of ("RequiredTriangles" ++ t) = WKey KReqT /\
   word_of ("ParallelTriangles" ++ t) = WKey KParT /\ word_of ("Quadrilaterals" ++ t) = WKey KQuad /\
   word_of ("RequiredQuadrilaterals" ++ t) = WKey KReqQ /\ word_of ("ParallelQuadrilaterals" ++ t) = WKey KParQ /\
   word_of "Tetrahedra" = WKey KTet /\ word_of ("Prisms" ++ t) = WKey KPri /\
   word_of ("Pentahedra" ++ t) = WKey KPri /\ word_of ("RequiredTetrahedra" ++ t) = WKey KReqE /\
   word_of ("ParallelTetrahedra" ++ t) = WKey KParE /\ word_of ("Edges" ++ t) = WKey KEdge /\
   word_of ("RequiredEdges" ++ t) = WKey KReqA /\ word_of ("ParallelEdges" ++ t) = WKey KParA /\
   word_of ("Ridges" ++ t) = WKey KRid /\ word_of ("Normals" ++ t) = WKey KNor /\
   word_of ("NormalAtVertices" ++ t) = WKey KNat /\
   word_of ("TrianglesP" ++ t) = WSkip /\ word_of ("TetrahedraP" ++ t) = WSkip /\
   word_of ("Tangent" ++ t) = WSkip /\ word_of ("Hexahedra" ++ t) = WSkip /\ word_of ("EdgesP" ++ t) = WKey KEdge /\
   word_of "Vertice" = WSkip /\ word_of "RequiredVertice" = WSkip /\ word_of "Corner" = WSkip /\
   word_of "Triangle" = WSkip /\ word_of "Quadrilateral" = WSkip /\ word_of "Tetrahedr" = WSkip /\
   word_of "Prism" = WSkip /\ word_of "Edge" = WSkip /\ word_of "Ridge" = WSkip /\ word_of "Normal" = WSkip)%string.
Proof. repeat apply conj; destruct t; reflexivity. Qed.

(** C51.  A file made of any sections, in any order: it is understood as soon as
    each kind occurs at most once with the right number of entries.  The sections
    whose keyword is unknown are skipped. *)
Definition describes (c : content D) (l : list (sec D)) : Prop :=
  Forall (@asec_ok D) l /\ NoDup (keys (@wkey D) l) /\
  forall k, (exists s, In s l /\ wkey s = Some k /\ s_n s = zlen (rows c k) /\ s_rows s = rows c k)
            \/ (~ In k (keys (@wkey D) l) /\ rows c k = []).

Theorem sections_in_any_order iso ver v c l npmax ntmax nemax :
  describes c l -> c_pts c <> [] -> c_tet c <> [] ->
  zaldy (zlen (c_pts c)) (zlen (c_tri c)) (zlen (c_tet c)) = Some (npmax, ntmax, nemax) ->
  zlen (c_pts c) <= npmax -> zlen (c_tri c) <= ntmax -> zlen (c_tet c) <= nemax ->
  readable npmax c ->
  exists m, load_ascii d0 fl neg unit zaldy iso ver empty
      ([TW "MeshVersionFormatted"; TI v; TW "Dimension"; TI 3]%string
       ++ concat (map (atext (fun d => d)) l) ++ [TW "End"%string]) = Ok m /\
    loaded d0 fl neg unit iso v c m.
Proof.
  intros (FA & ND & HK) N1 N2 ZA B1 B2 B3 R.
  match goal with |- context [load_ascii _ _ _ _ _ _ _ _ ?f] => set (file := f) end.
  destruct (@scan_secs D (fun d => d) l [TW "End"%string] (mkHdr v (h_sec (hdr0 ver empty file)))) as (h' & S & FD).
  - exact FA.
  - exact ND.
  - reflexivity.
  - assert (HH : forall k, holds h' k (rows c k)).
    { intros k. destruct (HK k) as [(s & Hs & W & En & Er)|[NI Er]].
      - destruct FD as (_ & _ & FD). destruct (FD s k Hs W) as [tl Et]. exists tl. rewrite Et, En, Er.
        f_equal. f_equal. clear. induction (concat (rows c k)) as [|[] r IH]; cbn; rewrite ?IH; reflexivity.
      - rewrite Er. eapply holds_absent; [exact FD|exact NI|]. destruct k; reflexivity. }
    destruct (@load_body_ok D d0 fl neg unit zaldy iso h' c npmax ntmax nemax HH N1 N2 ZA B1 B2 B3 R) as (m & E & L).
    exists m. split.
    + unfold load_ascii. unfold file at 1. rewrite scan_head, S, scan_end. exact E.
    + destruct FD as [HV _]. rewrite HV in L. exact L.
Qed.

End Theorems.

(** ** Concrete cases

    The floating-point numbers are integers; [pr] rounds to a multiple of ten, as
    a number with too many digits is rounded. *)

Definition V := (Z * Z * Z)%type.
Definition tens (z : Z) : Z := 10 * (z / 10).
Definition vneg (a b c d : V) : bool :=
  let '(ax, ay, az) := a in let '(bx, by_, bz) := b in
  let '(cx, cy, cz) := c in let '(dx, dy, dz) := d in
  let '(ux, uy, uz) := (bx - ax, by_ - ay, bz - az) in
  let '(vx, vy, vz) := (cx - ax, cy - ay, cz - az) in
  let '(wx, wy, wz) := (dx - ax, dy - ay, dz - az) in
  ux * (vy * wz - vz * wy) + uy * (vz * wx - vx * wz) + uz * (vx * wy - vy * wx) <? 0.
Definition twice (v : V) : V := let '(x, y, z) := v in (2 * x, 2 * y, 2 * z).
Definition room (np nt ne : Z) : option (Z * Z * Z) := Some (np + 10, nt + 10, ne + 10).

Definition cells {A} (d : A) (l : list A) : arr A :=
  mkArr (Z.of_nat (length l)) (fun k => nth (Z.to_nat k) l d).

Definition P (x y z r xp t : Z) : pt Z := mkPt (x, y, z) (7, 7, 7) r xp 99 true t.
Definition no_pt : pt Z := P 0 0 0 0 0 MG_NUL.
Definition no_elt (w t : nat) : elt := elt0 w t.

(** Seven vertices of which the third is deleted and the last isolated; two
    tetrahedra, the second of negative volume, with a deleted one between them; two
    triangles, one of which is required; an edge that is a ridge and parallel; a
    required quadrilateral; a normal. *)
Definition sample : mesh Z :=
  mkMesh 7 (cells no_pt
    [ no_pt; P 0 0 0 1 0 MG_CRN; P 101 0 0 (-2) 1 MG_BDY; P 5 5 5 3 0 MG_NUL; P 0 102 0 4 0 MG_REQ;
      P 0 0 103 5 0 (MG_BDY + MG_PARBDY); P 104 104 104 6 0 (MG_CRN + MG_REQ); P 9 9 9 7 0 0 ])
    1 (cells (0, 0, 0) [(0, 0, 0); (11, 12, 13)])
    3 (cells (no_elt 4 1)
      [ no_elt 4 1; mkElt [1; 2; 4; 5] 1 [0]; no_elt 4 1; mkElt [2; 4; 6; 5] (-3) [MG_REQ + MG_PARBDY] ])
    0 (cells (no_elt 6 0) [no_elt 6 0])
    2 (cells (no_elt 3 3)
      [ no_elt 3 3; mkElt [1; 2; 4] 8 [MG_REQ; 0; MG_REQ]; mkElt [2; 5; 6] 9 [MG_REQ; MG_REQ + MG_GEO; MG_REQ] ])
    1 (cells (no_elt 4 4) [ no_elt 4 4; mkElt [1; 2; 6; 5] 4 [MG_REQ; MG_REQ; MG_REQ; MG_REQ] ])
    1 (cells (no_elt 2 1) [ no_elt 2 1; mkElt [1; 5] 2 [MG_GEO + MG_PARBDY] ]).

Ltac each H := vm_compute in H; repeat (destruct H as [<- | H]); try destruct H.

Example sample_valid : valid sample.
Proof.
  constructor; try (cbn; lia).
  - intros e H. each H; (split; [reflexivity|]); intros v Hv; each Hv; vm_compute; tauto.
  - intros e H. each H; (split; [reflexivity|]); intros v Hv; each Hv; vm_compute; tauto.
  - intros e H. each H; (split; [reflexivity|]); (split; [reflexivity|]); intros v Hv; each Hv; vm_compute; tauto.
  - intros e H. each H; (split; [reflexivity|]); intros v Hv; each Hv; vm_compute; tauto.
  - intros k H. each H; vm_compute; split; discriminate || reflexivity.
Qed.

Example sample_fits : fits_mesh room sample.
Proof. eexists _, _, _. split; [reflexivity|]. vm_compute. repeat split; discriminate. Qed.

Example sample_ascii : exists f m', save_ascii tens sample = Ret f /\
  load_ascii 0 (fun z => z) vneg twice room false 0 empty f = Ok m' /\
  reread 0 vneg twice tens true false sample m'.
Proof. apply ascii_round_trip; [exact sample_valid | vm_compute; discriminate | exact sample_fits]. Qed.

Example sample_binary : exists f m', save_binary sample = Ret f /\
  load_binary 0 (fun z => z) vneg twice room false empty 24 f = Ok m' /\
  reread 0 vneg twice (fun z => z) false false sample m'.
Proof.
  apply binary_round_trip_partial; [exact sample_valid | vm_compute; discriminate | exact sample_fits | lia].
Qed.

(** The same, computed: the content of a loaded mesh as lists. *)
Definition shown (x : res (mesh Z)) :=
  match x with
  | Ok m => Some (map (aget (m_pt m)) (zs (m_np m)), elts (m_ne m) (m_tet m), elts (m_nt m) (m_tri m),
                  elts (m_nq m) (m_quad m), elts (m_na m) (m_edge m))
  | _ => None
  end.

Definition again_ascii (m : mesh Z) : res (mesh Z) :=
  match save_ascii tens m with
  | Ret f => load_ascii 0 (fun z => z) vneg twice room false 0 empty f
  | Stuck => Bad
  end.

Definition again_binary (m : mesh Z) : res (mesh Z) :=
  match save_binary m with
  | Ret f => load_binary 0 (fun z => z) vneg twice room false empty 24 f
  | Stuck => Bad
  end.

Definition Q (x y z r t : Z) (n : V) : pt Z := mkPt (x, y, z) n r 0 0 false t.

Example sample_ascii_shown : shown (again_ascii sample) =
  Some ([ Q 0 0 0 1 MG_CRN (0, 0, 0); Q 100 0 0 2 0 (20, 20, 20); Q 0 100 0 4 MG_REQ (0, 0, 0);
          Q 0 0 100 5 MG_PARBDY (0, 0, 0); Q 100 100 100 6 (MG_CRN + MG_REQ) (0, 0, 0);
          Q 0 0 0 7 MG_NUL (0, 0, 0) ],
        [ mkElt [1; 2; 3; 4] 1 [0]; mkElt [2; 3; 4; 5] 3 [MG_REQ + MG_PARBDY] ],
        [ mkElt [1; 2; 3] 8 [0; 0; 0]; mkElt [2; 4; 5] 9 [MG_REQ; MG_REQ; MG_REQ] ],
        [ mkElt [1; 2; 5; 4] 4 [MG_REQ; MG_REQ; MG_REQ; MG_REQ] ],
        [ mkElt [1; 4] 2 [MG_REF + MG_GEO + MG_PARBDY] ]).
Proof. vm_compute. reflexivity. Qed.

Example sample_binary_shown : shown (again_binary sample) =
  Some ([ Q 0 0 0 1 MG_CRN (0, 0, 0); Q 101 0 0 2 0 (22, 24, 26); Q 0 102 0 4 MG_REQ (0, 0, 0);
          Q 0 0 103 5 0 (0, 0, 0); Q 104 104 104 6 (MG_CRN + MG_REQ) (0, 0, 0);
          Q 9 9 9 7 MG_NUL (0, 0, 0) ],
        [ mkElt [1; 2; 3; 4] 1 [0]; mkElt [2; 3; 4; 5] 3 [MG_REQ] ],
        [ mkElt [1; 2; 3] 8 [0; 0; 0]; mkElt [2; 4; 5] 9 [MG_REQ; MG_REQ; MG_REQ] ],
        [ mkElt [1; 2; 5; 4] 4 [MG_REQ; MG_REQ; MG_REQ; MG_REQ] ],
        [ mkElt [1; 4] 2 [MG_REF + MG_GEO] ]).
Proof. vm_compute. reflexivity. Qed.

(** A file whose sections come in another order, of version 1, with a section that
    the loader does not know. *)
Definition small : content Z :=
  mkContent [((0, 0, 0), 1); ((1, 0, 0), -2); ((0, 1, 0), 3); ((0, 0, 1), 4)] [4; 4; 9] [] [1]
    [([1; 2; 3], 5)] [1] [] [] [] [] [] [] [] [] [([1; 2; 4; 3], 6)] [] [1] [] [] [].

Definition shuffled : list (sec Z) :=
  [ mkSec "Tetrahedra"%string 0 true 0 false 1 (rows small KTet);
    mkSec "RequiredTriangles"%string 0 true 0 false 1 (rows small KReqT);
    mkSec "Hexahedra"%string 0 true 0 false 1 [[TI 1; TI 2; TI 3; TI 4; TI 5; TI 6; TI 7; TI 8; TI 9]];
    mkSec "Corners"%string 0 true 0 false 1 (rows small KCor);
    mkSec "ParallelTetrahedra"%string 0 true 0 false 1 (rows small KParE);
    mkSec "Triangles"%string 0 true 0 false 1 (rows small KTri);
    mkSec "RequiredVertices"%string 0 true 0 false 3 (rows small KReqV);
    mkSec "Vertices"%string 0 true 0 false 4 (rows small KVert) ].

Example small_described : describes small shuffled.
Proof.
  split; [|split].
  - repeat (apply Forall_cons;
      [split; [reflexivity|split; [solve [left; reflexivity | right; eexists; reflexivity]|]]; vm_compute; repeat constructor|]).
    apply Forall_nil.
  - apply NoDup_dec_keys. reflexivity.
  - intros k. destruct k; try (right; split; [vm_compute; intuition discriminate|reflexivity]);
      left; unfold shuffled.
    + exists (nth 7 shuffled (mkSec "" 0 true 0 false 0 [])%string). vm_compute. tauto.
    + exists (nth 6 shuffled (mkSec "" 0 true 0 false 0 [])%string). vm_compute. tauto.
    + exists (nth 3 shuffled (mkSec "" 0 true 0 false 0 [])%string). vm_compute. tauto.
    + exists (nth 5 shuffled (mkSec "" 0 true 0 false 0 [])%string). vm_compute. tauto.
    + exists (nth 1 shuffled (mkSec "" 0 true 0 false 0 [])%string). vm_compute. tauto.
    + exists (nth 0 shuffled (mkSec "" 0 true 0 false 0 [])%string). vm_compute. tauto.
    + exists (nth 4 shuffled (mkSec "" 0 true 0 false 0 [])%string). vm_compute. tauto.
Qed.

Example small_readable : readable 14 small.
Proof.
  constructor; intros x H; each H; try (cbn; lia);
    (split; [reflexivity|]); intros v Hv; each Hv; lia.
Qed.

Example small_read : exists m, load_ascii 0 (fun z => z) vneg twice room false 0 empty
      ([TW "MeshVersionFormatted"; TI 1; TW "Dimension"; TI 3]%string
       ++ concat (map (atext (fun d => d)) shuffled) ++ [TW "End"%string]) = Ok m /\
    loaded 0 (fun z => z) vneg twice false 1 small m.
Proof.
  apply sections_in_any_order with (npmax := 14) (ntmax := 11) (nemax := 11);
    try exact small_described; try exact small_readable; try discriminate; try reflexivity;
    vm_compute; discriminate.
Qed.

(** ** What does not hold *)

(** C50.  The parallel marks are not written to a binary file. *)
Theorem binary_round_trip_refuted :
  exists (m m' : mesh Z) f, valid m /\ live (m_ne m) (m_tet m) <> [] /\ fits_mesh room m /\
    save_binary m = Ret f /\
    load_binary 0 (fun z => z) vneg twice room false empty 24 f = Ok m' /\
    ~ reread 0 vneg twice (fun z => z) true false m m'.
Proof.
  destruct sample_binary as (f & m' & S & L & R). exists sample, m', f.
  split; [exact sample_valid|]. split; [vm_compute; discriminate|]. split; [exact sample_fits|].
  split; [exact S|]. split; [exact L|]. intros R'.
  assert (H : nth_error (used_vertices sample) 3 = Some 5) by (vm_compute; reflexivity).
  destruct (rr_pt R 3 H) as (_ & _ & _ & _ & A & _). destruct (rr_pt R' 3 H) as (_ & _ & _ & _ & B & _).
  rewrite A in B. discriminate B.
Qed.

(** C50.  A required quadrilateral after a deleted one: its mark is written with
    its number in memory, which the reader ignores. *)
Definition with_deleted_quad : mesh Z :=
  mkMesh 7 (m_pt sample) 0 (m_xn sample) 3 (m_tet sample) 0 (m_pri sample) 0 (m_tri sample)
    2 (cells (no_elt 4 4) [ no_elt 4 4; no_elt 4 4; mkElt [1; 2; 6; 5] 4 [MG_REQ; MG_REQ; MG_REQ; MG_REQ] ])
    0 (m_edge sample).

Theorem deleted_quadrilateral_refuted :
  live 2 (m_quad with_deleted_quad) = [mkElt [1; 2; 6; 5] 4 [MG_REQ; MG_REQ; MG_REQ; MG_REQ]] /\
  option_map (fun x => snd (fst x)) (shown (again_ascii with_deleted_quad)) =
    Some [mkElt [1; 2; 5; 4] 4 [0; 0; 0; 0]].
Proof. vm_compute. split; reflexivity. Qed.

(** C53.  A mesh without tetrahedra is saved, and cannot be read. *)
Definition no_tetra : mesh Z :=
  mkMesh 7 (m_pt sample) 0 (m_xn sample) 0 (m_tet sample) 0 (m_pri sample) 2 (m_tri sample)
    0 (m_quad sample) 0 (m_edge sample).

Theorem saved_is_readable_refuted :
  exists (m : mesh Z) f, valid m /\ save_ascii tens m = Ret f /\
    load_ascii 0 (fun z => z) vneg twice room false 0 empty f = Fail (-1).
Proof.
  exists no_tetra. eexists. split; [|split; [vm_compute; reflexivity | vm_compute; reflexivity]].
  constructor; try (cbn; lia).
  - intros e H. each H; (split; [reflexivity|]); intros v Hv; each Hv; vm_compute; tauto.
Qed.

(** C53.  What the mesh held before matters: a file without triangles is read into
    an empty mesh and refused by a mesh that holds one triangle. *)
Definition plain (tets : list (tok Z)) (more : list (tok Z)) : list (tok Z) :=
  [TW "MeshVersionFormatted"; TI 2; TW "Dimension"; TI 3;
   TW "Vertices"; TI 4; TD 0; TD 0; TD 0; TI 0; TD 1; TD 0; TD 0; TI 0;
   TD 0; TD 1; TD 0; TI 0; TD 0; TD 0; TD 1; TI 0]%string
  ++ more ++ [TW "Tetrahedra"; TI 1]%string ++ tets ++ [TW "End"%string].

Theorem load_depends_on_the_mesh_refuted :
  exists f held m, load_ascii 0 (fun z => z) vneg twice room false 0 empty f = Ok m /\
    load_ascii 0 (fun z => z) vneg twice room false 0 held f = Fail (-1).
Proof.
  exists (plain [TI 1; TI 2; TI 3; TI 4; TI 0] []), (fun k => match k with KTri => 1 | _ => 0 end).
  eexists. split; vm_compute; reflexivity.
Qed.

(** C52.  Files that make the loader leave its arrays: a tetrahedron of vertex
    1000, and a corner of number -5.  The arrays have ten places too many. *)
Theorem load_in_bounds_refuted :
  exists f g, load_ascii 0 (fun z => z) vneg twice room false 0 empty f = Bad /\
    load_ascii 0 (fun z => z) vneg twice room false 0 empty g = Bad /\
    exists m, load_ascii 0 (fun z => z) vneg twice room false 0 empty
                (plain [TI 1; TI 2; TI 3; TI 4; TI 0] [TW "Corners"%string; TI 2; TI 1; TI 500]) = Ok m.
Proof.
  exists (plain [TI 1; TI 2; TI 3; TI 1000; TI 0] []),
    (plain [TI 1; TI 2; TI 3; TI 4; TI 0] [TW "Corners"%string; TI 2; TI 1; TI (-5)]).
  split; [vm_compute; reflexivity|]. split; [vm_compute; reflexivity|].
  eexists. vm_compute. reflexivity.
Qed.

(** C52.  A binary file that is read for ever: an unknown section whose announced
    end is its beginning. *)
Definition endless : list (tok Z) := [TI 1; TI 2; TI 3; TI 20; TI 3; TI 99; TI 20].

Theorem load_ends_refuted :
  let rest := [TI 99; TI 20] in
  (forall fuel h, bscan (S fuel) endless rest 3 h = bscan fuel endless rest 3 h) /\
  forall iso held fuel, load_binary 0 (fun z => z) vneg twice room iso held fuel endless = Bad.
Proof.
  cbv zeta.
  assert (L : forall fuel h, bscan (S fuel) endless [TI 99; TI 20] 3 h = bscan fuel endless [TI 99; TI 20] 3 h)
    by reflexivity.
  assert (B : forall fuel h, bscan fuel endless [TI 99; TI 20] 3 h = Bad).
  { induction fuel as [|fuel IH]; intros h; [reflexivity|]. rewrite L. apply IH. }
  split; [exact L|]. intros iso held [|fuel]; [reflexivity|].
  unfold load_binary, endless at 1. cbn [bint rbind Z.eqb]. cbn [bscan].
  cbn -[bscan]. fold endless. rewrite B. reflexivity.
Qed.

(** C49.  Fifteen digits are not enough: two numbers between 1 and 2 that a double
    holds and that are printed alike.  [digits n] is the integer of fifteen digits
    nearest to 10^14 * n / 2^52. *)
Definition digits (n : Z) : Z := (2 * n * 10 ^ 14 + 2 ^ 52) / (2 * 2 ^ 52).

Theorem fifteen_digits_refuted :
  exists n n', 2 ^ 52 <= n < 2 ^ 53 /\ 2 ^ 52 <= n' < 2 ^ 53 /\ n <> n' /\
    digits n = digits n' /\ 10 ^ 14 <= digits n < 10 ^ 15.
Proof. exists (2 ^ 52), (2 ^ 52 + 1). vm_compute. repeat split; discriminate || reflexivity. Qed.

Print Assumptions ascii_round_trip.
Print Assumptions binary_round_trip_partial.
Print Assumptions sections_in_any_order.
Print Assumptions load_ends_refuted.
Print Assumptions keywords.
