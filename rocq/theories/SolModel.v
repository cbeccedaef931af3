(** Model of the Medit solution files of mmg3d: MMG3D_saveSol, MMG3D_saveAllSols,
    MMG3D_loadSol and MMG3D_loadAllSols (src/mmg3d/inout_3d.c) and what they use
    in src/common/inout.c.

    An ASCII file is a list of tokens as in [IoModel]; a binary file is a list of
    bytes.

    Simplifications.
    - The simplifications of [IoModel] for the ASCII files.
    - The name and the opening of the file are not modelled.
    - The files of the other endianness and the binary files in single precision
      are not modelled (outcome [Bad]).
    - MMG5_int has 4 bytes.
    - The memory is sufficient.
    - The scalars and the vectors are stored one after the other while they are
      read, here once all the components are read.
    - The case of a solution without data ([m] is NULL), which is not saved, is not
      modelled. *)
From Coq Require Import String ZArith List Lia Bool.
From Verif Require Import CBase IoModel.
Import ListNotations.
Open Scope Z_scope.
Open Scope list_scope.

Set Implicit Arguments.

(** mmgcommon_private.h:151. *)
Definition MG_NOSURF : Z := 64.

(** enum MMG5_entities, libmmgtypes.h:228-234. *)
Definition Noentity : Z := 0.
Definition Vertex : Z := 1.
Definition Tetrahedron : Z := 4.

Section Sol.
Variable D : Type.
Variable d0 : D.
Variables (pr fl : D -> D).
Notation mesh := (mesh D).
Notation tok := (tok D).

(** MMG5_Sol, libmmgtypes.h:671-684: the entities, the type, the size and the
    values. *)
Record sol : Type := mkSol { q_ent : Z; q_type : Z; q_size : Z; q_m : arr D }.

(** ** Saving *)

(** sol->m[sol->size*pos+i] for all i. *)
Definition stored (s : sol) (k : Z) : outcome (list D) :=
  mapM (fun i => rd (q_m s) (q_size s * k + (i - 1))) (zs (q_size s)).

(** The exchange of the entries 2 and 3 of a tensor, common/inout.c:2354-2356 and
    2300-2302. *)
Definition swap23 (l : list D) : list D :=
  match l with
  | [a; b; c; d; e; f] => [a; b; d; c; e; f]
  | _ => l
  end.

(** The metric of a ridge with special storage, common/inout.c:1533-1563: six
    numbers computed from the stored ones, the normal and the tangent. *)
Variable canon : mesh -> Z -> list D -> D * D * D * D * D * D.
(** mesh->info.metRidTyp. *)
Variable ridtyp : bool.

Definition six (x : D * D * D * D * D * D) : list D :=
  let '(a, b, c, d, e, f) := x in [a; b; c; d; e; f].

(** The test of MMG5_build3DMetric, common/inout.c:1530-1532. *)
Definition ridge (t : Z) : bool :=
  ridtyp && (negb (MG_SIN t || has t MG_NOM || has t MG_NOSURF) && has t MG_GEO).

(** MMG5_build3DMetric, common/inout.c:1524-1568. *)
Definition built (m : mesh) (s : sol) (k : Z) : outcome (list D) :=
  p <- rd (m_pt m) k ;;
  v <- stored s k ;;
  if ridge (p_tag p) then Ret (six (canon m k v)) else Ret v.

(** MMG5_writeDoubleSol3D, common/inout.c:2320-2372: the numbers written. *)
Definition written (metric : bool) (m : mesh) (s : sol) (k : Z) : outcome (list D) :=
  if (q_size s =? 1) || (q_size s =? 3) then stored s k
  else if q_size s =? 6 then
    v <- (if metric then built m s k else stored s k) ;; Ret (swap23 v)
  else Ret [].

(** A solution at vertices, e.g. common/inout.c:2459-2462. *)
Definition at_vertices (s : sol) : bool := (q_ent s =? Noentity) || (q_ent s =? Vertex).
Definition at_tetra (s : sol) : bool := q_ent s =? Tetrahedron.

(** One row: all the solutions at an entity, inout_3d.c:2397-2407. *)
Definition row (metric : bool) (m : mesh) (l : list sol) (k : Z) : outcome (list D) :=
  r <- mapM (fun s => written metric m s k) l ;; Ret (concat r).

(** The loop over the vertices, inout_3d.c:2333-2339 and 2397-2408. *)
Definition vertex_rows (metric : bool) (m : mesh) (l : list sol) : outcome (list (list D)) :=
  _ <- c_assert (m_np m <? alen (m_pt m)) ;;
  mapM (row metric m l) (filter (fun k => vok (aget (m_pt m) k)) (zs (m_np m))).

(** The loop over the tetrahedra, inout_3d.c:2413-2424. *)
Definition tetra_rows (m : mesh) (l : list sol) : outcome (list (list D)) :=
  _ <- c_assert (m_ne m <? alen (m_tet m)) ;;
  mapM (row false m l) (filter (fun k => eok (aget (m_tet m) k)) (zs (m_ne m))).

(** The numbers of an ASCII file, common/inout.c:2337 and 2360. *)
Definition text (l : list (list D)) : list tok := map (fun d => TD (pr d)) (concat l).

(** MMG5_saveSolHeader, common/inout.c:2436-2484: ASCII. *)
Definition ascii_header (dim np : Z) (l : list sol) : list tok :=
  let v := filter at_vertices l in
  [TW "MeshVersionFormatted"%string; TI 2; TW "Dimension"%string; TI dim;
   TW "SolAtVertices"%string; TI np; TI (Z.of_nat (List.length v))] ++ map (fun s => TI (q_type s)) v.

Definition used (m : mesh) : Z := count (fun k => vok (aget (m_pt m) k)) (zs (m_np m)).

(** MMG3D_saveSol, inout_3d.c:2313-2350.  The header counts the metric only if it
    is at vertices; its values are written in any case. *)
Definition save_metric (m : mesh) (s : sol) : outcome (list tok) :=
  r <- vertex_rows true m [s] ;;
  Ret (ascii_header 3 (used m) [s] ++ text r ++ [TW "End"%string]).

(** MMG3D_saveAllSols, inout_3d.c:2352-2438, with MMG5_saveSolAtTetrahedraHeader,
    common/inout.c:2587-2640. *)
Definition save_all (m : mesh) (l : list sol) : outcome (list tok) :=
  let t := filter at_tetra l in
  r <- vertex_rows false m (filter at_vertices l) ;;
  q <- tetra_rows m t ;;
  Ret (ascii_header 3 (used m) l ++ text r
       ++ [TW "SolAtTetrahedra"%string; TI (count (fun k => eok (aget (m_tet m) k)) (zs (m_ne m)));
           TI (Z.of_nat (List.length t))]
       ++ map (fun s => TI (q_type s)) t ++ text q ++ [TW "End"%string]).

(** ** Binary *)

(** The bytes of a double and back. *)
Variable enc : D -> list Z.
Variable dec : list Z -> D.

(** An integer of 4 bytes, the lowest first. *)
Definition le4 (z : Z) : list Z :=
  [z mod 256; z / 256 mod 256; z / 65536 mod 256; z / 16777216 mod 256].
Definition unle4 (a b c d : Z) : Z :=
  let z := a + 256 * b + 65536 * c + 16777216 * d in
  if z <? 2147483648 then z else z - 4294967296.

(** A row and the [fprintf(inm,"\n")] that follows it also in a binary file,
    inout_3d.c:2338, 2407 and 2423. *)
Definition bytes (l : list (list D)) : list Z :=
  concat (map (fun r => concat (map enc r) ++ [10]) l).

(** Size of a section, common/inout.c:2488-2495 and 2621-2628, version 2. *)
Definition section_size (l : list sol) (n : Z) : Z :=
  fold_left (fun p s => p + (4 + q_size s * 2 * 4 * n)) l 16.

(** MMG5_saveSolHeader, common/inout.c:2443-2452 and 2486-2507: binary. *)
Definition binary_header (np : Z) (l : list sol) : list Z :=
  let v := filter at_vertices l in
  concat (map le4 [1; 2; 3; 20; 3; 62; 20 + section_size v np; np; Z.of_nat (List.length v)])
  ++ concat (map (fun s => le4 (q_type s)) v).

Definition save_metric_binary (m : mesh) (s : sol) : outcome (list Z) :=
  r <- vertex_rows true m [s] ;;
  Ret (binary_header (used m) [s] ++ bytes r ++ le4 54).

Definition save_all_binary (m : mesh) (l : list sol) : outcome (list Z) :=
  let v := filter at_vertices l in
  let t := filter at_tetra l in
  let ne := count (fun k => eok (aget (m_tet m) k)) (zs (m_ne m)) in
  r <- vertex_rows false m v ;;
  q <- tetra_rows m t ;;
  Ret (binary_header (used m) l ++ bytes r
       ++ concat (map le4 [66; 20 + section_size v (used m) + section_size t ne; ne;
                           Z.of_nat (List.length t)])
       ++ concat (map (fun s => le4 (q_type s)) t) ++ bytes q ++ le4 54).

(** ** Loading *)

(** MMG5_loadSolHeader, common/inout.c:2135-2157: the number of values, the types
    and the rest of the file.  When the file has no SolAtVertices the function
    returns 1 without having set [np], [nsols] and [type], which the callers read:
    [Bad]. *)
Fixpoint scan_sol (f : list tok) : res (Z * list Z * list tok) :=
  match f with
  | [] => Bad
  | TW s :: r =>
      if String.prefix "End" s then Bad
      else if String.prefix "Dimension" s then
        match r with
        | TI d :: r' => if d =? 3 then scan_sol r' else Fail (-1)
        | _ => Fail (-1)
        end
      else if String.prefix "SolAtVertices" s then
        rbind (rdI r) (fun '(np, r1) =>
        rbind (rdI r1) (fun '(ns, r2) =>
        if ns <? 0 then Fail (-1)
        else rbind (rdn (Z.to_nat ns) r2) (fun '(ty, r3) => Ok (np, ty, r3))))
      else scan_sol r
  | _ :: r => scan_sol r
  end.

(** [fread] of an integer and of a double. *)
Definition bint4 (f : list Z) : res (Z * list Z) :=
  match f with
  | a :: b :: c :: d :: r => Ok (unle4 a b c d, r)
  | _ => Fail (-1)
  end.
Definition bdbl (f : list Z) : res (D * list Z) :=
  if (List.length f <? 8)%nat then Fail (-1) else Ok (dec (firstn 8 f), skipn 8 f).

Fixpoint bints (n : nat) (f : list Z) : res (list Z * list Z) :=
  match n with
  | O => Ok ([], f)
  | S n' => rbind (bint4 f) (fun '(z, r) => rbind (bints n' r) (fun '(l, r') => Ok (z :: l, r')))
  end.

(** The loop of common/inout.c:2168-2203.  [fread] returns 0 at the end of the
    file, which is not EOF: the loop goes on with the last integer and the next
    reading fails.  A position is followed blindly; [fuel] bounds the number of
    sections. *)
Fixpoint bscan_sol (fuel : nat) (whole f : list Z) : res (Z * list Z * list Z) :=
  match fuel with
  | O => Bad
  | S n =>
      rbind (bint4 f) (fun '(z, r) =>
      if z =? 54 then Bad
      else if z =? 3 then
        rbind (bint4 r) (fun '(_, r1) =>
        rbind (bint4 r1) (fun '(d, r2) =>
        if d =? 3 then bscan_sol n whole r2 else Fail (-1)))
      else if z =? 62 then
        rbind (bint4 r) (fun '(_, r1) =>
        rbind (bint4 r1) (fun '(np, r2) =>
        rbind (bint4 r2) (fun '(ns, r3) =>
        if ns <? 0 then Fail (-1)
        else rbind (bints (Z.to_nat ns) r3) (fun '(ty, r4) => Ok (np, ty, r4)))))
      else
        rbind (bint4 r) (fun '(p, _) =>
        bscan_sol n whole (if p <? 0 then whole else skipn (Z.to_nat p) whole)))
  end.

(** common/inout.c:2159-2167: the encoding and the version. *)
Definition bhead (fuel : nat) (f : list Z) : res (Z * list Z * list Z) :=
  rbind (bint4 f) (fun '(e, r) =>
  if e =? 16777216 then Bad
  else if e =? 1 then
    rbind (bint4 r) (fun '(v, r1) => if v =? 1 then Bad else bscan_sol fuel f r1)
  else Fail (-1)).

(** MMG3D_Set_solSize, API_functions_3d.c:116-159: the array has room for npmax
    vertices as that of the vertices; the entities are not set, and those of a new
    solution are 0. *)
Definition size_of (t : Z) : option Z :=
  if t =? 1 then Some 1 else if t =? 2 then Some 3 else if t =? 3 then Some 6 else None.

Definition new_sol (m : mesh) (t : Z) : res sol :=
  match size_of t with
  | Some n => Ok (mkSol Noentity t n (acalloc (n * alen (m_pt m)) d0))
  | None => Fail (-1)
  end.

Fixpoint new_sols (m : mesh) (l : list Z) : res (list sol) :=
  match l with
  | [] => Ok []
  | t :: r => rbind (new_sol m t) (fun s => rbind (new_sols m r) (fun ss => Ok (s :: ss)))
  end.

Section Reading.
(** A file and the reading of the next number. *)
Variable F : Type.
Variable next : F -> res (D * F).

Fixpoint nexts (n : nat) (f : F) : res (list D * F) :=
  match n with
  | O => Ok ([], f)
  | S n' => rbind (next f) (fun '(d, r) => rbind (nexts n' r) (fun '(l, r') => Ok (d :: l, r')))
  end.

Fixpoint wrl (a : arr D) (i : Z) (l : list D) : outcome (arr D) :=
  match l with
  | [] => Ret a
  | d :: r => a' <- wr a i d ;; wrl a' (i + 1) r
  end.

(** MMG5_readDoubleSol3D and MMG5_readFloatSol3D, common/inout.c:2220-2307. *)
Definition read1 (k : Z) (s : sol) (f : F) : res (sol * F) :=
  rbind (nexts (Z.to_nat (q_size s)) f) (fun '(l, f') =>
  rbind (lift (wrl (q_m s) (q_size s * k) (if q_size s =? 6 then swap23 l else l))) (fun a =>
  Ok (mkSol (q_ent s) (q_type s) (q_size s) a, f'))).

Fixpoint read_row (k : Z) (l : list sol) (f : F) : res (list sol * F) :=
  match l with
  | [] => Ok ([], f)
  | s :: r => rbind (read1 k s f) (fun '(s', f1) =>
              rbind (read_row k r f1) (fun '(r', f2) => Ok (s' :: r', f2)))
  end.

(** inout_3d.c:2198-2209 and 2287-2305. *)
Definition read_all (np : Z) (l : list sol) (f : F) : res (list sol) :=
  rbind (floop (fun k '(l, f) => read_row k l f) (zs np) (l, f)) (fun x => Ok (fst x)).

(** MMG3D_loadSol, inout_3d.c:2146-2217, after the header, with
    MMG5_chkMetricType, common/inout.c:2663-2698; [lag] is mesh->info.lag. *)
Definition load_metric_body (lag : Z) (m : mesh) (x : Z * list Z * F) : res sol :=
  let '(np, ty, f) := x in
  match ty with
  | [t] =>
      if negb (m_np m =? np) then Fail (-1)
      else if (if lag =? -1 then negb (t =? 1) && negb (t =? 3) else negb (t =? 2)) then Fail (-1)
      else rbind (new_sol m t) (fun s =>
           rbind (read_all (m_np m) [s] f) (fun l =>
           match l with s' :: _ => Ok s' | [] => Bad end))
  | _ => Fail (-1)
  end.

(** MMG3D_loadAllSols, inout_3d.c:2219-2311, after the header: the version of the
    first solution is read even if there is none, 2287. *)
Definition load_all_body (m : mesh) (x : Z * list Z * F) : res (list sol) :=
  let '(np, ty, f) := x in
  if negb (m_np m =? np) then Fail (-1)
  else if 100 <? Z.of_nat (List.length ty) then Fail (-1)
  else rbind (new_sols m ty) (fun l =>
       match l with
       | [] => Bad
       | _ => read_all (m_np m) l f
       end).

End Reading.

(** [%lf], or [%f] in single precision: met->ver, inout_3d.c:2184 and 2198, which
    an ASCII file does not change. *)
Definition anum (single : bool) (f : list tok) : res (D * list tok) :=
  rbind (rdD f) (fun '(d, r) => Ok (if single then fl d else d, r)).

Definition load_metric (lag ver : Z) (m : mesh) (f : list tok) : res sol :=
  rbind (scan_sol f) (load_metric_body (anum (ver =? 1)) lag m).

Definition load_all (m : mesh) (f : list tok) : res (list sol) :=
  rbind (scan_sol f) (load_all_body (anum false) m).

Definition load_metric_binary (fuel : nat) (lag : Z) (m : mesh) (f : list Z) : res sol :=
  rbind (bhead fuel f) (load_metric_body bdbl lag m).

Definition load_all_binary (fuel : nat) (m : mesh) (f : list Z) : res (list sol) :=
  rbind (bhead fuel f) (load_all_body bdbl m).

End Sol.
