(** Model of the Medit files of mmg3d: MMG3D_saveMesh and MMG3D_loadMesh_opened
    (src/mmg3d/inout_3d.c), ASCII and binary.

    A file is a list of tokens.  In an ASCII file a token is a word between
    blanks: a keyword, an integer or a floating-point number.  In a binary file
    a token is a 4-byte integer or an 8-byte floating-point number.

    Simplifications.
    - The lines that begin with a sharp are not modelled.
    - The words of an ASCII file are integers, floating-point numbers or other
      words: [%d] applied to a number with a point is taken as a failure.
    - A binary file in which an integer is read where a double was written, or in
      which a position falls inside a double, is not modelled (outcome [Bad]), nor
      are the files written on a machine of the other endianness.
    - The integers are unbounded.
    - A file name is not modelled: see [NameModel] for the extensions.
    - The floating-point numbers are an arbitrary type [D].  [pr d] is the number
      that [%lf] reads where [%.15lg] wrote [d], [fl d] is [d] rounded to a
      float, [neg] tells whether MMG5_orvol is negative, and [unit] normalises a
      vector. *)
From Coq Require Import String ZArith List Lia Bool.
From Verif Require Import CBase.
Import ListNotations.
Open Scope Z_scope.
Open Scope list_scope.

(** ** Tags, mmgcommon_private.h:145-157, and macros, 166-175 *)

Definition MG_REF : Z := 1.
Definition MG_GEO : Z := 2.
Definition MG_REQ : Z := 4.
Definition MG_NOM : Z := 8.
Definition MG_BDY : Z := 16.
Definition MG_CRN : Z := 32.
Definition MG_PARBDY : Z := 8192.
Definition MG_NUL : Z := 32768.

(** [tag & bit]. *)
Definition has (t b : Z) : bool := negb (Z.land t b =? 0).
(** [tag |= bit] and [tag &= ~bit]. *)
Definition tag_on (b t : Z) : Z := Z.lor t b.
Definition tag_off (b t : Z) : Z := Z.land t (Z.lnot b).

Definition MG_SIN (t : Z) : bool := has t MG_CRN || has t MG_REQ.
Definition MG_EDG_OR_NOM (t : Z) : bool := (has t MG_GEO || has t MG_REF) || has t MG_NOM.

(** The numbers 1, ..., n. *)
Definition zs (n : Z) : list Z := map Z.of_nat (seq 1 (Z.to_nat n)).
Definition count {A} (P : A -> bool) (l : list A) : Z := Z.of_nat (List.length (filter P l)).

(** ** Outcomes of the loader *)

Inductive res (A : Type) : Type :=
| Ok (a : A)      (** goes on with this state, or returns 1 *)
| Fail (z : Z)    (** returns z *)
| Bad.            (** access outside an array, or not modelled *)
Arguments Ok {A} a.
Arguments Fail {A} z.
Arguments Bad {A}.

Definition rbind {A B} (x : res A) (f : A -> res B) : res B :=
  match x with Ok a => f a | Fail z => Fail z | Bad => Bad end.

(** A checked access in the loader. *)
Definition lift {A} (x : outcome A) : res A := match x with Ret a => Ok a | Stuck => Bad end.

Set Implicit Arguments.

Section Io.
Variable D : Type.
Variable d0 : D.
Variables (pr fl : D -> D).
Let V3 := (D * D * D)%type.
Variable neg : V3 -> V3 -> V3 -> V3 -> bool.
Variable unit : V3 -> V3.

Inductive tok : Type :=
| TW (s : string)
| TI (z : Z)
| TD (d : D).

Definition v3 (c : V3) : list tok := let '(x, y, z) := c in [TD x; TD y; TD z].

(** ** Mesh, libmmgtypes.h:265-295, 300-317, 330-350, 407-419, 468-478, 520-620

    The vertices and the tags of an element are lists: four vertices and one tag
    for a tetrahedron, three of each for a triangle, four of each for a
    quadrilateral, two and one for an edge, six and none for a prism. *)

Record pt : Type := mkPt
  { p_c : V3; p_n : V3; p_ref : Z; p_xp : Z; p_tmp : Z; p_flag : bool; p_tag : Z }.

Definition set_tmp (n : Z) (p : pt) := mkPt (p_c p) (p_n p) (p_ref p) (p_xp p) n false (p_tag p).
Definition set_flag (p : pt) := mkPt (p_c p) (p_n p) (p_ref p) (p_xp p) (p_tmp p) true (p_tag p).
Definition set_tag (f : Z -> Z) (p : pt) :=
  mkPt (p_c p) (p_n p) (p_ref p) (p_xp p) (p_tmp p) (p_flag p) (f (p_tag p)).
Definition set_n (n : V3) (p : pt) :=
  mkPt (p_c p) n (p_ref p) (p_xp p) (p_tmp p) (p_flag p) (p_tag p).

Record elt : Type := mkElt { e_v : list Z; e_ref : Z; e_tag : list Z }.

Definition set_tags (f : Z -> Z) (e : elt) := mkElt (e_v e) (e_ref e) (map f (e_tag e)).

(** MG_VOK and MG_EOK, mmgcommon_private.h:166-167. *)
Definition vok (p : pt) : bool := p_tag p <? MG_NUL.
Definition eok (e : elt) : bool := 0 <? nth 0 (e_v e) 0.

(** An element all of whose tags carry the bit: tag of a tetrahedron or of an
    edge, the three tags of a triangle, the four tags of a quadrilateral. *)
Definition marked (b : Z) (e : elt) : bool := forallb (fun t => has t b) (e_tag e).

Record mesh : Type := mkMesh
  { m_np : Z; m_pt : arr pt;
    m_xp : Z; m_xn : arr V3;
    m_ne : Z; m_tet : arr elt;
    m_npr : Z; m_pri : arr elt;
    m_nt : Z; m_tri : arr elt;
    m_nq : Z; m_quad : arr elt;
    m_na : Z; m_edge : arr elt }.

(** ** Saving *)

Fixpoint mapM {A B} (f : A -> outcome B) (l : list A) : outcome (list B) :=
  match l with
  | [] => Ret []
  | a :: r => b <- f a ;; bs <- mapM f r ;; Ret (b :: bs)
  end.

(** The compact numbers of the vertices, inout_3d.c:1320-1330: in increasing
    order, [tmp = ++np] and [flag = 0] for every vertex in use. *)
Definition number1 (s : arr pt * Z) (k : Z) : arr pt * Z :=
  let '(a, n) := s in
  let p := aget a k in
  if vok p then (mkArr (alen a) (upd (aget a) k (set_tmp (n + 1) p)), n + 1) else s.

Definition number (np : Z) (a : arr pt) : arr pt * Z := fold_left number1 (zs np) (a, 0).

(** The tetrahedra mark their vertices, inout_3d.c:1475-1486. *)
Definition flag1 (a : arr pt) (v : Z) : outcome (arr pt) :=
  p <- rd a v ;; wr a v (set_flag p).

Fixpoint flags (l : list Z) (a : arr pt) : outcome (arr pt) :=
  match l with
  | [] => Ret a
  | v :: r => b <- flag1 a v ;; flags r b
  end.

(** A section: its keyword, its binary code, whether it is written, the number of
    4-byte words of an entry in the computation of the position, whether it is
    kept for ASCII files, the announced number of entries and the entries. *)
Record sec : Type := mkSec
  { s_kw : string; s_code : Z; s_on : bool; s_width : Z; s_asc : bool;
    s_n : Z; s_rows : list (list tok) }.

(** An element: the compact numbers of its vertices and its reference. *)
Definition erow (a : arr pt) (e : elt) : outcome (list tok) :=
  l <- mapM (fun v => p <- rd a v ;; Ret (TI (p_tmp p))) (e_v e) ;;
  Ret (l ++ [TI (e_ref e)]).

Definition one (k : Z) : list tok := [TI k].

(** The numbers, among the valid elements, of those that satisfy [P]:
    inout_3d.c:1507-1519. *)
Fixpoint ranked (P : elt -> bool) (n : Z) (l : list elt) : list Z :=
  match l with
  | [] => []
  | e :: r => if eok e
              then if P e then (n + 1) :: ranked P (n + 1) r else ranked P (n + 1) r
              else ranked P n r
  end.

(** A vertex whose normal is saved, inout_3d.c:1591-1608, and one whose tangent
    is saved, 1609-1611. *)
Definition with_normal (p : pt) : bool :=
  if negb (vok p) || negb (p_flag p) || MG_SIN (p_tag p) then false
  else has (p_tag p) MG_BDY && (negb (has (p_tag p) MG_GEO) || has (p_tag p) MG_NOM).
Definition with_tangent (p : pt) : bool :=
  if negb (vok p) || negb (p_flag p) || MG_SIN (p_tag p) then false
  else MG_EDG_OR_NOM (p_tag p).

(** Rows [number of the vertex, rank] of a list of vertices: [++nn],
    inout_3d.c:1653-1667. *)
Fixpoint counted (n : Z) (l : list pt) : list (list tok) :=
  match l with
  | [] => []
  | p :: r => [TI (p_tmp p); TI (n + 1)] :: counted (n + 1) r
  end.

Definition elts (n : Z) (a : arr elt) : list elt := map (aget a) (zs n).

(** The sections of MMG3D_saveMesh, inout_3d.c:1273-2060, in the order in which
    they are written.  [bin] only matters for the numbers of the tangents: the
    binary branch writes the number of normals, 1719.  The array [tetra] is
    allocated.  The loops over the required triangles and quadrilaterals begin at
    0 (1777, 1796, 1863, 1881). *)
Definition sections (bin : bool) (m : mesh) : outcome (list sec) :=
  (* the loops over the vertices *)
  _ <- c_assert (m_np m <? alen (m_pt m)) ;;
  let '(a, np) := number (m_np m) (m_pt m) in
  let pts := filter vok (map (aget a) (zs (m_np m))) in
  let vmark b := filter (fun p => has (p_tag p) b) pts in
  let vrows b := map (fun p => one (p_tmp p)) (vmark b) in
  let nv b := Z.of_nat (List.length (vmark b)) in
  (* tetrahedra *)
  _ <- c_assert (m_ne m <? alen (m_tet m)) ;;
  let tets := elts (m_ne m) (m_tet m) in
  let tok_ := filter eok tets in
  let ne P := count P tok_ in
  a2 <- flags (concat (map e_v tok_)) a ;;
  trows <- mapM (erow a2) tok_ ;;
  (* prisms *)
  _ <- c_assert (m_npr m <? alen (m_pri m)) ;;
  let pris := filter eok (elts (m_npr m) (m_pri m)) in
  prows <- mapM (erow a2) pris ;;
  (* normals and tangents *)
  let on := negb (m_xp m =? 0) in
  let all := map (aget a2) (zs (m_np m)) in
  let pn := filter with_normal all in
  let ptg := filter with_tangent all in
  let nn := Z.of_nat (List.length pn) in
  let ntg := Z.of_nat (List.length ptg) in
  nrows <- (if on then mapM (fun p => n <- rd (m_xn m) (p_xp p) ;; Ret (v3 n)) pn else Ret []) ;;
  (* triangles *)
  _ <- c_assert ((m_nt m =? 0) || (m_nt m <? alen (m_tri m))) ;;
  let tris := elts (m_nt m) (m_tri m) in
  frows <- mapM (erow a2) tris ;;
  let raw n a b := filter (fun k => marked b (aget a k)) (0 :: zs n) in
  let nf b := count (marked b) tris in
  let ton := negb (m_nt m =? 0) in
  (* quadrilaterals *)
  _ <- c_assert ((m_nq m =? 0) || (m_nq m <? alen (m_quad m))) ;;
  let quads := filter eok (elts (m_nq m) (m_quad m)) in
  qrows <- mapM (erow a2) quads ;;
  let nq := Z.of_nat (List.length quads) in
  let nqm b := count (marked b) quads in
  let qon := negb (nq =? 0) in
  (* edges *)
  _ <- c_assert ((m_na m =? 0) || (m_na m <? alen (m_edge m))) ;;
  let edges := elts (m_na m) (m_edge m) in
  arows <- mapM (erow a2) edges ;;
  let amark b := filter (fun k => marked b (aget (m_edge m) k)) (zs (m_na m)) in
  let nam b := count (marked b) edges in
  let aon := negb (m_na m =? 0) in
  Ret
    [ mkSec "Vertices"%string 4 true 7 false np
        (map (fun p => v3 (p_c p) ++ [TI (Z.abs (p_ref p))]) pts);
      mkSec "Corners"%string 13 (negb (nv MG_CRN =? 0)) 1 false (nv MG_CRN) (vrows MG_CRN);
      mkSec "RequiredVertices"%string 15 (negb (nv MG_REQ =? 0)) 1 false (nv MG_REQ) (vrows MG_REQ);
      mkSec "ParallelVertices"%string 0 (negb (nv MG_PARBDY =? 0)) 1 true (nv MG_PARBDY) (vrows MG_PARBDY);
      mkSec "Tetrahedra"%string 8 true 5 false (Z.of_nat (List.length tok_)) trows;
      mkSec "RequiredTetrahedra"%string 12 (negb (ne (marked MG_REQ) =? 0)) 1 false (ne (marked MG_REQ))
        (map one (ranked (marked MG_REQ) 0 tets));
      mkSec "ParallelTetrahedra"%string 0 (negb (ne (marked MG_PARBDY) =? 0)) 1 true (ne (marked MG_PARBDY))
        (map one (ranked (marked MG_PARBDY) 0 tets));
      mkSec "Prisms"%string 9 (negb (Z.of_nat (List.length pris) =? 0)) 7 false
        (Z.of_nat (List.length pris)) prows;
      mkSec "Normals"%string 60 on 6 false nn nrows;
      mkSec "NormalAtVertices"%string 20 on 2 false nn (counted 0 pn);
      mkSec "Tangents"%string 59 (on && negb (ntg =? 0)) 6 false ntg (map (fun p => v3 (p_n p)) ptg);
      mkSec "TangentAtVertices"%string 61 (on && negb (ntg =? 0)) 2 false ntg
        (if bin then map (fun p => [TI (p_tmp p); TI nn]) ptg else counted 0 ptg);
      mkSec "Triangles"%string 6 ton 4 false (m_nt m) frows;
      mkSec "RequiredTriangles"%string 17 (ton && negb (nf MG_REQ =? 0)) 1 false (nf MG_REQ)
        (map one (raw (m_nt m) (m_tri m) MG_REQ));
      mkSec "ParallelTriangles"%string 0 (ton && negb (nf MG_PARBDY =? 0)) 1 true (nf MG_PARBDY)
        (map one (raw (m_nt m) (m_tri m) MG_PARBDY));
      mkSec "Quadrilaterals"%string 7 qon 5 false nq qrows;
      mkSec "RequiredQuadrilaterals"%string 18 (qon && negb (nqm MG_REQ =? 0)) 1 false (nqm MG_REQ)
        (map one (raw (m_nq m) (m_quad m) MG_REQ));
      mkSec "ParallelQuadrilaterals"%string 0 (qon && negb (nqm MG_PARBDY =? 0)) 1 true (nqm MG_PARBDY)
        (map one (raw (m_nq m) (m_quad m) MG_PARBDY));
      mkSec "Edges"%string 5 aon 3 false (m_na m) arows;
      mkSec "Ridges"%string 14 (aon && negb (nam MG_GEO =? 0)) 1 false (nam MG_GEO) (map one (amark MG_GEO));
      mkSec "RequiredEdges"%string 16 (aon && negb (nam MG_REQ =? 0)) 1 false (nam MG_REQ)
        (map one (amark MG_REQ));
      mkSec "ParallelEdges"%string 0 (aon && negb (nam MG_PARBDY =? 0)) 1 true (nam MG_PARBDY)
        (map one (amark MG_PARBDY)) ].

(** A number as it will be read from an ASCII file. *)
Definition printed (t : tok) : tok := match t with TD d => TD (pr d) | _ => t end.

Definition atext (s : sec) : list tok :=
  TW (s_kw s) :: TI (s_n s) :: map printed (concat (s_rows s)).

(** ASCII: inout_3d.c:1293-1298, the sections, and 2049-2051. *)
Definition save_ascii (m : mesh) : outcome (list tok) :=
  l <- sections false m ;;
  Ret ([TW "MeshVersionFormatted"; TI 2; TW "Dimension"; TI 3]%string
       ++ concat (map atext (filter s_on l)) ++ [TW "End"%string]).

(** Binary: [bpos] is increased by the size of the section before it is written,
    e.g. inout_3d.c:1338-1342; the parallel entities are left out, 1422-1428. *)
Fixpoint btext (bpos : Z) (l : list sec) : list tok :=
  match l with
  | [] => [TI 54; TI (bpos + 8)]
  | s :: r =>
      let b := bpos + (3 + s_width s * s_n s) * 4 in
      TI (s_code s) :: TI b :: TI (s_n s) :: concat (s_rows s) ++ btext b r
  end.

Definition save_binary (m : mesh) : outcome (list tok) :=
  l <- sections true m ;;
  Ret ([TI 1; TI 2; TI 3; TI 20; TI 3]
       ++ btext 20 (filter (fun s => s_on s && negb (s_asc s)) l)).

(** ** Loading *)

Inductive key : Type :=
| KVert | KReqV | KParV | KCor | KTri | KReqT | KParT | KQuad | KReqQ | KParQ
| KTet | KPri | KReqE | KParE | KEdge | KReqA | KParA | KRid | KNor | KNat.

Definition key_eq_dec (a b : key) : {a = b} + {a <> b}.
Proof. decide equality. Defined.

(** What the first reading of the file gathers: the version, and for each kind of
    section the announced number of entries and the rest of the file after it. *)
Record hdr : Type := mkHdr { h_ver : Z; h_sec : key -> Z * list tok }.

Definition put (h : hdr) (k : key) (x : Z * list tok) : hdr :=
  mkHdr (h_ver h) (fun j => if key_eq_dec j k then x else h_sec h j).

(** The tests on the word read, inout_3d.c:146-262, in their order. *)
Inductive word : Type := WSkip | WVer | WDim | WKey (k : key).

Definition words : list (string * word) :=
  [ ("MeshVersionFormatted", WVer); ("Dimension", WDim); ("Vertices", WKey KVert);
    ("RequiredVertices", WKey KReqV); ("ParallelVertices", WKey KParV);
    ("TrianglesP", WSkip); ("Triangles", WKey KTri);
    ("RequiredTriangles", WKey KReqT); ("ParallelTriangles", WKey KParT);
    ("Quadrilaterals", WKey KQuad); ("RequiredQuadrilaterals", WKey KReqQ);
    ("ParallelQuadrilaterals", WKey KParQ); ("TetrahedraP", WSkip); ("Tetrahedra", WKey KTet);
    ("Prisms", WKey KPri); ("Pentahedra", WKey KPri);
    ("RequiredTetrahedra", WKey KReqE); ("ParallelTetrahedra", WKey KParE);
    ("Corners", WKey KCor); ("Edges", WKey KEdge); ("RequiredEdges", WKey KReqA);
    ("ParallelEdges", WKey KParA); ("Ridges", WKey KRid); ("Normals", WKey KNor);
    ("NormalAtVertices", WKey KNat) ]%string.

Definition word_of (s : string) : word :=
  match find (fun x => String.prefix (fst x) s) words with
  | Some x => snd x
  | None => WSkip
  end.

(** The first reading of an ASCII file, inout_3d.c:143-263.  The numbers are read
    as words and match no keyword.  [%d] fails on anything but an integer:
    MMG_FSCANF returns -1.  A second [Normals] is skipped if the first announced a
    number other than 0. *)
Fixpoint scan (f : list tok) (h : hdr) : res hdr :=
  match f with
  | [] => Ok h
  | TW s :: r =>
      if String.prefix "End" s then Ok h
      else match word_of s with
           | WSkip => scan r h
           | WVer => match r with TI z :: r' => scan r' (mkHdr z (h_sec h)) | _ => Fail (-1) end
           | WDim => match r with
                     | TI z :: r' => if z =? 3 then scan r' h else Fail (-1)
                     | _ => Fail (-1)
                     end
           | WKey k =>
               match k with
               | KNor =>
                   if fst (h_sec h KNor) =? 0
                   then match r with TI z :: r' => scan r' (put h k (z, r')) | _ => Fail (-1) end
                   else scan r h
               | _ => match r with TI z :: r' => scan r' (put h k (z, r')) | _ => Fail (-1) end
               end
           end
  | _ :: r => scan r h
  end.

(** The position of a binary file: [fseek] to the byte [p].  After the end of the
    file nothing can be read. *)
Definition size (t : tok) : Z := match t with TD _ => 8 | _ => 4 end.

Fixpoint seek (f : list tok) (p : Z) : option (list tok) :=
  if p =? 0 then Some f
  else match f with
       | [] => Some []
       | t :: r => if p <? size t then None else seek r (p - size t)
       end.

(** [fread] of an integer. *)
Definition bint (f : list tok) : res (Z * list tok) :=
  match f with
  | TI z :: r => Ok (z, r)
  | [] => Fail (-1)
  | _ => Bad
  end.

(** The tests on the code read, inout_3d.c:276-416; [true] when the section is
    ignored if a number other than 0 has already been read. *)
Definition code (z : Z) : option (key * bool) :=
  if z =? 4 then Some (KVert, true) else if z =? 15 then Some (KReqV, false)
  else if z =? 6 then Some (KTri, true) else if z =? 17 then Some (KReqT, false)
  else if z =? 7 then Some (KQuad, true) else if z =? 18 then Some (KReqQ, false)
  else if z =? 8 then Some (KTet, true) else if z =? 9 then Some (KPri, true)
  else if z =? 12 then Some (KReqE, false) else if z =? 13 then Some (KCor, true)
  else if z =? 5 then Some (KEdge, true) else if z =? 16 then Some (KReqA, false)
  else if z =? 14 then Some (KRid, false) else if z =? 60 then Some (KNor, true)
  else if z =? 20 then Some (KNat, false) else None.

(** The first reading of a binary file, inout_3d.c:264-426.  A position is
    followed blindly: [fuel] bounds the number of sections, [Bad] when it is
    exhausted.  A negative position makes [fseek] fail, which leaves the reading
    at the beginning of the file after [rewind]. *)
Definition jump (whole : list tok) (p : Z) : option (list tok) :=
  if p <? 0 then Some whole else seek whole p.

Fixpoint bscan (fuel : nat) (whole f : list tok) (bdim : Z) (h : hdr) : res hdr :=
  match fuel with
  | O => Bad
  | S n =>
      match f with
      | [] => Ok h
      | TI z :: r =>
          if z =? 54 then Ok h
          else if (bdim =? 0) && (z =? 3) then
            rbind (bint r) (fun '(_, r1) =>
            rbind (bint r1) (fun '(d, r2) =>
            if d =? 3 then bscan n whole r2 d h else Fail (-1)))
          else
            let other :=
              rbind (bint r) (fun '(p, _) =>
              match jump whole p with Some g => bscan n whole g bdim h | None => Bad end) in
            match code z with
            | Some (k, once) =>
                if once && negb (fst (h_sec h k) =? 0) then other
                else
                  rbind (bint r) (fun '(p, r1) =>
                  rbind (bint r1) (fun '(c, r2) =>
                  match jump whole p with
                  | Some g => bscan n whole g bdim (put h k (c, r2))
                  | None => Bad
                  end))
            | None => other
            end
      | _ => Bad
      end
  end.

(** The counters that keep the values of the mesh: npi, nti, nei, nai, nquad,
    nprism and nc1 (the local ones are set to 0, inout_3d.c:131-139); all the
    positions are 0. *)
Definition hdr0 (ver : Z) (held : key -> Z) (f : list tok) : hdr :=
  mkHdr ver (fun k =>
    match k with
    | KVert | KTri | KTet | KEdge | KQuad | KPri | KNat => (held k, f)
    | _ => (0, f)
    end).

(** ** Second reading *)

(** Loops [for (k=1; k<=n; k++)]. *)
Fixpoint floop {S} (f : Z -> S -> res S) (l : list Z) (s : S) : res S :=
  match l with
  | [] => Ok s
  | k :: r => rbind (f k s) (floop f r)
  end.

Definition rdI (f : list tok) : res (Z * list tok) :=
  match f with TI z :: r => Ok (z, r) | _ => Fail (-1) end.
Definition rdD (f : list tok) : res (D * list tok) :=
  match f with TD z :: r => Ok (z, r) | _ => Fail (-1) end.

Fixpoint rdn (w : nat) (f : list tok) : res (list Z * list tok) :=
  match w with
  | O => Ok ([], f)
  | S w' => rbind (rdI f) (fun '(z, r) => rbind (rdn w' r) (fun '(l, r') => Ok (z :: l, r')))
  end.

Definition rd3 (g : D -> D) (f : list tok) : res (V3 * list tok) :=
  rbind (rdD f) (fun '(x, f1) =>
  rbind (rdD f1) (fun '(y, f2) =>
  rbind (rdD f2) (fun '(z, f3) => Ok ((g x, g y, g z), f3)))).

(** A vertex, inout_3d.c:449-491: single precision if the version is below 2. *)
Definition load_pt (ver : Z) (k : Z) (s : arr pt * list tok) : res (arr pt * list tok) :=
  let '(a, f) := s in
  rbind (rd3 (if ver <? 2 then fl else fun d => d) f) (fun '(c, f1) =>
  rbind (rdI f1) (fun '(r, f2) =>
  rbind (lift (rd a k)) (fun p =>
  rbind (lift (wr a k (mkPt c (p_n p) (if r <? 0 then - r else r) (p_xp p) 0 (p_flag p) MG_NUL)))
        (fun a' => Ok (a', f2))))).

(** A list of marks, e.g. inout_3d.c:493-513: a number above [lim] is ignored. *)
Definition load_mark {A} (lim : Z) (g : A -> A) (k : Z) (s : arr A * list tok)
  : res (arr A * list tok) :=
  let '(a, f) := s in
  rbind (rdI f) (fun '(i, f1) =>
  if lim <? i then Ok (a, f1)
  else rbind (lift (rd a i)) (fun p => rbind (lift (wr a i (g p))) (fun a' => Ok (a', f1)))).

Definition marks {A} (x : Z * list tok) (lim : Z) (g : A -> A) (a : arr A) : res (arr A) :=
  rbind (floop (load_mark lim g) (zs (fst x)) (a, snd x)) (fun s => Ok (fst s)).

(** An element of [w] vertices, e.g. inout_3d.c:563-580. *)
Definition load_elt (w : nat) (g : elt -> elt) (k : Z) (s : arr elt * list tok)
  : res (arr elt * list tok) :=
  let '(a, f) := s in
  rbind (rdn w f) (fun '(v, f1) =>
  rbind (rdI f1) (fun '(r, f2) =>
  rbind (lift (rd a k)) (fun e =>
  rbind (lift (wr a k (g (mkElt v (if r <? 0 then - r else r) (e_tag e)))))
        (fun a' => Ok (a', f2))))).

(** The vertices of an element are in use, inout_3d.c:807-810 and 885-888. *)
Fixpoint use (l : list Z) (a : arr pt) : res (arr pt) :=
  match l with
  | [] => Ok a
  | v :: r => rbind (lift (rd a v)) (fun p =>
              rbind (lift (wr a v (set_tag (tag_off MG_NUL) p))) (use r))
  end.

(** MMG5_orvol(point,v) < 0 and the exchange of the vertices 2 and 3,
    inout_3d.c:812-820. *)
Definition orient (a : arr pt) (e : elt) : res elt :=
  match e_v e with
  | [i; j; k; l] =>
      rbind (lift (rd a i)) (fun p => rbind (lift (rd a j)) (fun q =>
      rbind (lift (rd a k)) (fun r => rbind (lift (rd a l)) (fun s =>
      Ok (if neg (p_c p) (p_c q) (p_c r) (p_c s)
          then mkElt [i; j; l; k] (e_ref e) (e_tag e) else e)))))
  | _ => Bad
  end.

(** A tetrahedron, inout_3d.c:789-822. *)
Definition load_tet (k : Z) (s : arr pt * arr elt * list tok) : res (arr pt * arr elt * list tok) :=
  let '(p, a, f) := s in
  rbind (load_elt 4 (fun e => e) k (a, f)) (fun '(a1, f1) =>
  rbind (lift (rd a1 k)) (fun e =>
  rbind (use (e_v e) p) (fun p1 =>
  rbind (orient p1 e) (fun e1 =>
  rbind (lift (wr a1 k e1)) (fun a2 => Ok (p1, a2, f1)))))).

(** A prism, inout_3d.c:866-889. *)
Definition load_pri (k : Z) (s : arr pt * arr elt * list tok) : res (arr pt * arr elt * list tok) :=
  let '(p, a, f) := s in
  rbind (load_elt 6 (fun e => e) k (a, f)) (fun '(a1, f1) =>
  rbind (lift (rd a1 k)) (fun e =>
  rbind (use (e_v e) p) (fun p1 => Ok (p1, a1, f1)))).

(** The normals, inout_3d.c:909-946, in an array that begins at 1. *)
Definition load_nor (ver : Z) (k : Z) (s : arr V3 * list tok) : res (arr V3 * list tok) :=
  let '(a, f) := s in
  rbind (rd3 (if ver =? 1 then fl else fun d => d) f) (fun '(n, f1) =>
  rbind (lift (wr a k (unit n))) (fun a' => Ok (a', f1))).

(** The normal of a vertex, inout_3d.c:951-968. *)
Definition load_nat (np : Z) (nor : arr V3) (k : Z) (s : arr pt * list tok)
  : res (arr pt * list tok) :=
  let '(a, f) := s in
  rbind (rdI f) (fun '(ip, f1) =>
  rbind (rdI f1) (fun '(idn, f2) =>
  if (0 <? idn) && (ip <? np + 1) then
    rbind (lift (rd nor idn)) (fun n =>
    rbind (lift (rd a ip)) (fun p =>
    rbind (lift (wr a ip (set_n n p))) (fun a' => Ok (a', f2))))
  else Ok (a, f2))).

(** MMG3D_zaldy: fails, or gives the sizes npmax, ntmax and nemax
    (zaldy_3d.c:288-351); the arrays are set to zero. *)
Variable zaldy : Z -> Z -> Z -> option (Z * Z * Z).

Definition pt0 : pt := mkPt (d0, d0, d0) (d0, d0, d0) 0 0 0 false 0.
Definition elt0 (w t : nat) : elt := mkElt (repeat 0 w) 0 (repeat 0 t).
Definition fresh {A} (n : Z) (x : A) : arr A := mkArr (n + 1) (fun _ => x).

(** Nothing is allocated for an empty kind of element, zaldy_3d.c:301-321. *)
Definition table (n : Z) (x : elt) : arr elt := if n =? 0 then mkArr 0 (fun _ => x) else fresh n x.

(** The second reading, inout_3d.c:428-985.  [iso] is mesh->info.iso. *)
Definition load_body (iso : bool) (h : hdr) : res mesh :=
  let n k := fst (h_sec h k) in
  let s k := h_sec h k in
  let np := n KVert in let nt := n KTri in let ne := n KTet in let na := n KEdge in
  let nq := n KQuad in let npr := n KPri in
  if (np =? 0) || (ne =? 0) then Fail (-1)
  else match zaldy np nt ne with
  | None => Fail 0
  | Some (npmax, ntmax, nemax) =>
    if (npmax <? np) || (ntmax <? nt) || (nemax <? ne) then Fail (-1)
    else
    (* vertices *)
    rbind (floop (load_pt (h_ver h)) (zs np) (fresh npmax pt0, snd (s KVert))) (fun '(p1, _) =>
    rbind (marks (s KReqV) np (set_tag (fun t => tag_off MG_NUL (tag_on MG_REQ t))) p1) (fun p2 =>
    rbind (marks (s KParV) np (set_tag (tag_on MG_PARBDY)) p2) (fun p3 =>
    rbind (marks (s KCor) np (set_tag (tag_on MG_CRN)) p3) (fun p4 =>
    (* triangles *)
    rbind (floop (load_elt 3 (fun e => e)) (zs nt) (table nt (elt0 3 3), snd (s KTri))) (fun '(f1, _) =>
    rbind (if nt =? 0 then Ok f1 else
           rbind (marks (s KReqT) nt (set_tags (tag_on MG_REQ)) f1) (fun f2 =>
           marks (s KParT) nt (set_tags (tag_on MG_PARBDY)) f2)) (fun f3 =>
    (* quadrilaterals *)
    rbind (floop (load_elt 4 (fun e => e)) (zs nq) (table nq (elt0 4 4), snd (s KQuad))) (fun '(q1, _) =>
    rbind (if nq =? 0 then Ok q1 else
           rbind (marks (s KReqQ) nq (set_tags (tag_on MG_REQ)) q1) (fun q2 =>
           marks (s KParQ) nq (set_tags (tag_on MG_PARBDY)) q2)) (fun q3 =>
    (* edges *)
    rbind (floop (load_elt 2 (set_tags (tag_on MG_REF))) (zs na) (table na (elt0 2 1), snd (s KEdge)))
          (fun '(a1, _) =>
    rbind (if na =? 0 then Ok a1 else
           rbind (marks (s KRid) na (set_tags (tag_on MG_GEO)) a1) (fun a2 =>
           rbind (marks (s KReqA) na (set_tags (tag_on MG_REQ)) a2) (fun a3 =>
           marks (s KParA) na (set_tags (tag_on MG_PARBDY)) a3))) (fun a4 =>
    (* tetrahedra *)
    rbind (floop load_tet (zs ne) (p4, fresh nemax (elt0 4 1), snd (s KTet))) (fun '(p5, t1, _) =>
    rbind (marks (s KReqE) ne (set_tags (tag_on MG_REQ)) t1) (fun t2 =>
    rbind (marks (s KParE) ne (set_tags (tag_on MG_PARBDY)) t2) (fun t3 =>
    (* prisms *)
    rbind (floop load_pri (zs npr) (p5, table npr (elt0 6 0), snd (s KPri))) (fun '(p6, r1, _) =>
    (* normals *)
    rbind (if iso || negb (0 <? n KNor) then Ok p6
           else
           rbind (floop (load_nor (h_ver h)) (zs (n KNor))
                        (fresh (n KNor) (d0, d0, d0), snd (s KNor))) (fun '(nor, _) =>
           rbind (floop (load_nat np nor) (zs (n KNat)) (p6, snd (s KNat))) (fun '(p7, _) =>
           Ok p7))) (fun p7 =>
    Ok (mkMesh np p7 0 (mkArr 0 (fun _ => (d0, d0, d0))) ne t3 npr r1 nt f3 nq q3 na a4)
    )))))))))))))))
  end.

(** MMG3D_loadMesh_opened on an ASCII file.  [held] and [ver] are what the mesh
    holds before the call. *)
Definition load_ascii (iso : bool) (ver : Z) (held : key -> Z) (f : list tok) : res mesh :=
  rbind (scan f (hdr0 ver held f)) (load_body iso).

(** The same on a binary file, inout_3d.c:264-274: the first integer tells the
    endianness, the second is the version. *)
Definition load_binary (iso : bool) (held : key -> Z) (fuel : nat) (f : list tok) : res mesh :=
  rbind (bint f) (fun '(e, f1) =>
  if e =? 16777216 then Bad else
  rbind (bint f1) (fun '(v, f2) =>
  rbind (bscan fuel f f2 0 (hdr0 v held f)) (load_body iso))).

End Io.

Arguments TW {D} s.
Arguments TI {D} z.
Arguments TD {D} d.
