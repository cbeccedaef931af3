(** The user tables of local parameters, materials and level-set base
    references, and the inversion of the table of materials. *)
From Coq Require Import ZArith QArith List Lia Bool.
From Verif Require Import CBase MeshModel PoolModel PackModel.
Import ListNotations.
Open Scope Z_scope.

(** [MMG5_Mat], libmmgtypes.h:525-531: [dospl], [ref], [rin], [rex]. *)
Record mat := mkM { mref : Z; mspl : Z; mrin : Z; mrex : Z }.
Definition mat0 : mat := mkM 0 0 0 0.

(** [MMG5_Par], libmmgtypes.h:262-268.  Sizes are rationals instead of doubles. *)
Record par := mkPar { pelt : Z; parref : Z; phmin : Q; phmax : Q; phausd : Q }.

(** The fields of [MMG5_Info] (libmmgtypes.h:548-593) that hold the three tables:
    [nmat], [nmati], [mat], [invmat] (offset, lookup), [nbr], [nbri], [br],
    [npar], [npari], [par], [parTyp].  A NULL pointer is an array of length 0.
    The field [invmat.size] is the length of the lookup array. *)
Record info := mkI {
  inmat : Z; inmati : Z; imat : arr mat; ioff : Z; ilook : arr Z;
  inbr : Z; inbri : Z; ibr : arr Z;
  inpar : Z; inpari : Z; ipar : arr par; ityp : Z }.

(** Freshly initialised structure ([MMG5_Init_parameters], API_functions.c:65-135,
    and the zeroed mesh of the constructors). *)
Definition info0 : info :=
  mkI 0 0 (acalloc 0 mat0) 0 (acalloc 0 0) 0 0 (acalloc 0 0)
      0 0 (acalloc 0 (mkPar 0 0 0 0 0)) 0.

(** The references of the tetrahedra, triangles and edges of the mesh at the time
    of a call: the only part of the mesh [MMG5_MultiMat_init] reads. *)
Record mrefs := mkR { rtet : list Z; rtri : list Z; redg : list Z }.

(** [MG_PLUS], [MG_MINUS], libmmgtypes.h:77,82; [MMG5_MMAT_NoSplit],
    [MMG5_MMAT_Split], libmmgtypes.h:203,211; [MMG5_Triangle],
    [MMG5_Tetrahedron], libmmgtypes.h:232-233; 32 bit [MMG5_INTMAX] *)
Definition MG_PLUS : Z := 2.
Definition MG_MINUS : Z := 3.
Definition MMAT_NoSplit : Z := 0.
Definition MMAT_Split : Z := 1.
Definition MMG5_Triangle : Z := 3.
Definition MMG5_Tetrahedron : Z := 4.
Definition INTMAX : Z := 2147483647.

(** Conversion of an [int] to the field [dospl] of type [int8_t]. *)
Definition int8 (x : Z) : Z := (x + 128) mod 256 - 128.

(** ** Inverse table *)

(** [MMG5_InvMat_key], mmg2.c:46-48 *)
Definition inv_key (off ref : Z) : Z := ref - off.

(** [MMG5_InvMat_code], mmg2.c:58-60 *)
Definition inv_code (k attr : Z) : Z := 4 * (k + 1) + attr.

(** [MMG5_InvMat_getIndex], mmg2.c:69-73; C division truncates *)
Definition inv_index (s : info) (ref : Z) : outcome Z :=
  x <- rd (ilook s) (inv_key (ioff s) ref) ;; Ret (Z.quot x 4 - 1).

(** [MMG5_InvMat_getAttrib], mmg2.c:84-89 *)
Definition inv_attrib (s : info) (ref : Z) : outcome Z :=
  x <- rd (ilook s) (inv_key (ioff s) ref) ;; Ret (Z.rem x 4).

(** One store of [MMG5_InvMat_set]: the check reads the cell, a warning is printed
    if it is taken, the cell is overwritten (mmg2.c:137-141,153-156,159-163). *)
Definition inv_put (off : Z) (look : arr Z) (ref code : Z) : outcome (arr Z) :=
  _ <- rd look (inv_key off ref) ;; wr look (inv_key off ref) code.

(** [MMG5_InvMat_set], mmg2.c:129-164 *)
Definition inv_set (m : arr mat) (off k : Z) (look : arr Z) : outcome (arr Z) :=
  pm <- rd m k ;;
  look <- inv_put off look (mref pm) (inv_code k (mspl pm)) ;;
  if mspl pm =? 0 then Ret look
  else look <- inv_put off look (mrin pm) (inv_code k MG_MINUS) ;;
       inv_put off look (mrex pm) (inv_code k MG_PLUS).

(** Update of [refmin], [refmax] by one reference (mmg2.c:349-350 and below) *)
Definition mm (b : Z * Z) (r : Z) : Z * Z :=
  let '(lo, hi) := b in ((if r <? lo then r else lo), (if hi <? r then r else hi)).

(** The loop over the materials, mmg2.c:346-359 *)
Definition mm_mat (m : arr mat) (k : Z) (b : Z * Z) : outcome (Z * Z) :=
  pm <- rd m k ;;
  let b := mm b (mref pm) in
  if mspl pm =? 0 then Ret b else Ret (mm (mm b (mrin pm)) (mrex pm)).

(** [MMG5_MultiMat_init], mmg2.c:326-399.  [fits] says whether the counted
    allocation of the lookup table succeeds.  The difference [refmax-refmin+1] is
    computed on [MMG5_int]; an overflow is [Stuck]. *)
Definition multimat_init (r : mrefs) (fits : bool) (s : info) : outcome (Z * info) :=
  if inmat s =? 0 then Ret (1, s)
  else if inmati s <? inmat s then Ret (0, s)
  else
    b <- for_range 0 (inmat s - 1) (mm_mat (imat s)) (INTMAX, 0) ;;
    let b := fold_left mm (rtet r) b in
    let b := fold_left mm (rtri r) b in
    let '(lo, hi) := fold_left mm (redg r) b in
    let size := hi - lo + 1 in
    _ <- c_assert ((0 <? size) && (size <=? INTMAX)) ;;
    if negb fits then
      Ret (0, mkI (inmat s) (inmati s) (imat s) lo (ilook s) (inbr s) (inbri s) (ibr s)
                  (inpar s) (inpari s) (ipar s) (ityp s))
    else
      look <- for_range 0 (inmat s - 1) (inv_set (imat s) lo) (acalloc size 0) ;;
      Ret (1, mkI (inmat s) (inmati s) (imat s) lo look (inbr s) (inbri s) (ibr s)
                  (inpar s) (inpari s) (ipar s) (ityp s)).

(** ** Queries *)

(** [MMG5_getStartRef] and [MMG5_InvMat_getParent], mmg2.c:177-232: status and
    parent reference (0 when the status is 0) *)
Definition get_start_ref (s : info) (ref : Z) : outcome (Z * Z) :=
  if inmat s =? 0 then Ret (1, 0)
  else
    k <- inv_index s ref ;;
    if k =? -1 then Ret (0, 0)
    else pm <- rd (imat s) k ;; Ret (1, mref pm).

(** [MMG5_isSplit], mmg2.c:412-437: status and the references [refint], [refext] *)
Definition is_split (s : info) (ref : Z) : outcome (Z * Z * Z) :=
  if inmat s =? 0 then Ret (1, MG_MINUS, MG_PLUS)
  else
    k <- inv_index s ref ;;
    _ <- c_assert (negb (k =? -1)) ;;
    pm <- rd (imat s) k ;;
    if mspl pm =? 0 then Ret (0, 0, 0) else Ret (1, mrin pm, mrex pm).

(** [MMG5_isNotSplit], mmg2.c:448-461 *)
Definition is_not_split (s : info) (ref : Z) : outcome Z :=
  if inmat s =? 0 then Ret 0
  else a <- inv_attrib s ref ;; if a =? 0 then Ret 0 else Ret 1.

(** [MMG5_isLevelSet], mmg2.c:472-494 *)
Definition is_level_set (s : info) (ref0 ref1 : Z) : outcome Z :=
  if inmat s =? 0 then
    Ret (if ((ref0 =? MG_MINUS) && (ref1 =? MG_PLUS)) || ((ref1 =? MG_MINUS) && (ref0 =? MG_PLUS))
         then 1 else 0)
  else
    f0 <- inv_attrib s ref0 ;;
    f1 <- inv_attrib s ref1 ;;
    Ret (if f0 + f1 =? MG_MINUS + MG_PLUS then 1 else 0).

(** ** Setters *)

(** Position of the first entry below [n] that satisfies [p] (the loops of
    libtools.c:129-151 and API_functions_3d.c:2492-2506) *)
Definition find_first {A} (a : arr A) (p : A -> bool) (n : Z) : outcome (option Z) :=
  for_range 0 (n - 1) (fun k r =>
    match r with
    | Some _ => Ret r
    | None => x <- rd a k ;; Ret (if p x then Some k else None)
    end) None.

(** [MMG3D_IPARAM_numberOfMat], API_functions_3d.c:2261-2278.  The allocation
    fails when [fits] is false; it always fails for a negative number (the size
    becomes a huge [size_t]). *)
Definition set_nmat (val : Z) (fits : bool) (s : info) : Z * info :=
  let ok := fits && (0 <=? val) in
  ((if ok then 1 else 0),
   mkI val 0 (acalloc (if ok then val else 0) mat0) (ioff s) (ilook s) (inbr s) (inbri s) (ibr s)
       (inpar s) (inpari s) (ipar s) (ityp s)).

Definition put_mat (s : info) (n : Z) (m : arr mat) : info :=
  mkI (inmat s) n m (ioff s) (ilook s) (inbr s) (inbri s) (ibr s)
      (inpar s) (inpari s) (ipar s) (ityp s).

(** [MMG5_Set_multiMat], libtools.c:104-174 *)
Definition set_mat (r : mrefs) (fits : bool) (ref split rin rex : Z) (s : info) : outcome (Z * info) :=
  if inmat s =? 0 then Ret (0, s)
  else if inmat s <=? inmati s then Ret (0, s)
  else if ref <? 0 then Ret (0, s)
  else
    o <- find_first (imat s) (fun m => mref m =? ref) (inmati s) ;;
    match o with
    | Some k =>
      m <- wr (imat s) k (if split =? 0 then mkM ref (int8 split) ref ref
                          else mkM ref (int8 split) rin rex) ;;
      Ret (1, put_mat s (inmati s) m)
    | None =>
      if negb (split =? MMAT_Split) && negb (split =? MMAT_NoSplit) then Ret (0, s)
      else
        m <- wr (imat s) (inmati s) (mkM ref (int8 split) rin rex) ;;
        let s := put_mat s (inmati s + 1) m in
        if inmati s =? inmat s then multimat_init r fits s else Ret (1, s)
    end.

(** [MMG3D_IPARAM_numberOfLSBaseReferences], API_functions_3d.c:2249-2259: the
    former table is forgotten, [nbri] is kept.  When the counter of memory refuses
    ([fits] is false) the function returns before touching the pointer. *)
Definition set_nbr (val : Z) (fits : bool) (s : info) : Z * info :=
  let ok := fits && (0 <=? val) in
  ((if ok then 1 else 0),
   mkI (inmat s) (inmati s) (imat s) (ioff s) (ilook s)
       val (inbri s) (if negb fits then ibr s else acalloc (if ok then val else 0) 0)
       (inpar s) (inpari s) (ipar s) (ityp s)).

(** [MMG5_Set_lsBaseReference], libtools.c:176-203 *)
Definition set_br (br : Z) (s : info) : outcome (Z * info) :=
  if inbr s =? 0 then Ret (0, s)
  else if inbr s <=? inbri s then Ret (0, s)
  else if br <? 0 then Ret (0, s)
  else
    b <- wr (ibr s) (inbri s) br ;;
    Ret (1, mkI (inmat s) (inmati s) (imat s) (ioff s) (ilook s)
                (inbr s) (inbri s + 1) b (inpar s) (inpari s) (ipar s) (ityp s)).

(** [MMG3D_IPARAM_numberOfLocalParam], API_functions_3d.c:2222-2248; [d] is the
    initial value (element type [MMG5_Noentity] = 0, reference [MMG5_INTMAX],
    current global sizes). *)
Definition set_npar (val : Z) (fits : bool) (hmin hmax hausd : Q) (s : info) : Z * info :=
  let ok := fits && (0 <=? val) in
  ((if ok then 1 else 0),
   mkI (inmat s) (inmati s) (imat s) (ioff s) (ilook s) (inbr s) (inbri s) (ibr s)
       val 0 (acalloc (if ok then val else 0) (mkPar 0 INTMAX hmin hmax hausd)) 0).

Definition put_par (s : info) (n : Z) (p : arr par) (typ : Z) : info :=
  mkI (inmat s) (inmati s) (imat s) (ioff s) (ilook s) (inbr s) (inbri s) (ibr s)
      (inpar s) n p typ.

(** [MMG3D_Set_localParameter], API_functions_3d.c:2444-2539 *)
Definition set_par (typ ref : Z) (hmin hmax hausd : Q) (s : info) : outcome (Z * info) :=
  if inpar s =? 0 then Ret (0, s)
  else if inpar s <=? inpari s then Ret (0, s)
  else if negb (typ =? MMG5_Triangle) && negb (typ =? MMG5_Tetrahedron) then Ret (0, s)
  else if ref <? 0 then Ret (0, s)
  else if Qle_bool hmin 0 then Ret (0, s)
  else if Qle_bool hmax 0 then Ret (0, s)
  else if Qle_bool hausd 0 then Ret (0, s)
  else
    o <- find_first (ipar s) (fun p => (pelt p =? typ) && (parref p =? ref)) (inpari s) ;;
    match o with
    | Some k =>
      a <- wr (ipar s) k (mkPar typ ref hmin hmax hausd) ;;
      Ret (1, put_par s (inpari s) a (ityp s))
    | None =>
      a <- wr (ipar s) (inpari s) (mkPar typ ref hmin hmax hausd) ;;
      let flag := if typ =? MMG5_Triangle then 2 else 4 in
      Ret (1, put_par s (inpari s + 1) a (Z.lor (ityp s) flag))
    end.

(** ** References of the elements under the level-set *)

Definition set_tref (t : tetra) (r : Z) : tetra :=
  mkT (v0 t) (v1 t) (v2 t) (v3 t) r (txt t) (tmark t) (tq t).

(** Number of vertices of [t] whose value satisfies [p] (mmg3d2.c:1270-1279) *)
Definition count_v (sol : arr Q) (p : Q -> bool) (t : tetra) : outcome Z :=
  for_range 0 3 (fun i n => v <- rd sol (tv t i) ;; Ret (if p v then n + 1 else n)) 0.

Definition qpos (v : Q) : bool := negb (Qle_bool v 0).
Definition qneg (v : Q) : bool := negb (Qle_bool 0 v).

(** [MMG3D_setref_ls], mmg3d2.c:1257-1300 *)
Definition setref_ls (s : info) (sol : arr Q) (ne : Z) (a : arr tetra) : outcome (arr tetra) :=
  for_range 1 ne (fun k a =>
    pt <- rd a k ;;
    if negb (eok pt) then Ret a
    else
      npls <- count_v sol qpos pt ;;
      nmns <- count_v sol qneg pt ;;
      _ <- c_assert (4 - npls - nmns <? 4) ;;
      ' (ier, refint, refext) <- is_split s (tref pt) ;;
      if negb (npls =? 0) then
        if negb (ier =? 0) then _ <- c_assert (nmns =? 0) ;; wr a k (set_tref pt refext) else Ret a
      else
        if negb (ier =? 0) then _ <- c_assert (negb (nmns =? 0)) ;; wr a k (set_tref pt refint) else Ret a) a.

(** Clearing of [MG_CRN] and [MG_REQ] and of the reference of a vertex
    (mmg3d2.c:330-335) *)
Definition reset_pt (p : point) : point :=
  mkP (pc p) 0 (pxp p) (ptmp p) (pflag p) (Z.ldiff (Z.ldiff (ptag p) MG_CRN) MG_REQ).

(** [MMG3D_resetRef_ls], mmg3d2.c:313-354: status, tetrahedra and vertices *)
Definition reset_pts (isoref ne : Z) (a : arr tetra) (pts : arr point) : outcome (arr point) :=
  for_range 1 ne (fun k pts =>
    pt <- rd a k ;;
    if negb (eok pt) then Ret pts
    else for_range 0 3 (fun i pts =>
           p0 <- rd pts (tv pt i) ;;
           if pref p0 =? isoref then wr pts (tv pt i) (reset_pt p0) else Ret pts) pts) pts.

Definition reset_tets (s : info) (ne : Z) (a : arr tetra) : outcome (Z * arr tetra) :=
  for_range 1 ne (fun k (ra : Z * arr tetra) =>
    let '(res, a) := ra in
    if res =? 0 then Ret (res, a)
    else
      pt <- rd a k ;;
      if negb (eok pt) then Ret (res, a)
      else
        ' (ier, ref) <- get_start_ref s (tref pt) ;;
        if ier =? 0 then Ret (0, a)
        else a <- wr a k (set_tref pt ref) ;; Ret (1, a)) (1, a).

Definition reset_ls (s : info) (isoref ne : Z) (a : arr tetra) (pts : arr point)
  : outcome (Z * arr tetra * arr point) :=
  pts <- reset_pts isoref ne a pts ;;
  ' (res, a) <- reset_tets s ne a ;;
  Ret (res, a, pts).
