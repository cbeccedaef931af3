(** Parameters of Mmg3d: [MMG3D_Set_iparameter], [MMG3D_Get_iparameter],
    [MMG3D_Set_dparameter] (src/mmg3d/API_functions_3d.c:2113-2440) and the sizes of
    the arrays derived from the memory parameter (src/mmg3d/zaldy_3d.c:157-278). *)
From Coq Require Import ZArith Reals List Bool Lia.
From Verif Require Import CBase PoolModel.
Import ListNotations.
Open Scope Z_scope.

(** Compilation options: MMG_PATTERN, USE_ELAS, USE_SCOTCH, width of MMG5_int. *)
Record cfg := mkCfg { pattern : bool; elas : bool; scotch : bool; int64 : bool }.

(** Integer members of [MMG5_Info] touched by the setters, libmmgtypes.h:523-564 *)
Inductive ifield :=
| Imprim | Mem | Octree | Debug | Setfem | Opnbdy | Iso | Isoref | Isosurf | Lag | Nsd
| Optim | OptimLES | Noinsert | Noswap | Nomove | Nosurf | Nreg | Xreg | Nosizreq
| Npar | Npari | ParTyp | Nbr | Nmat | Nmati | Renum | Ani | Sethmin | Sethmax.

(** Real members *)
Inductive dfield := Dhd | Hmin | Hmax | Hsiz | Hgrad | Hgradreq | Hausd | Ls | Lxreg | Rmc.

Definition ifield_dec (a b : ifield) : {a = b} + {a <> b}.
Proof. decide equality. Defined.
Definition dfield_dec (a b : dfield) : {a = b} + {a <> b}.
Proof. decide equality. Defined.

(** Declared type of the members: signed or not, number of bits *)
Definition ctype (c : cfg) (f : ifield) : bool * Z :=
  match f with
  | Isoref | Nsd => (true, if int64 c then 64 else 32)
  | Nreg | Xreg | Debug | Iso | Isosurf | Setfem | Lag | ParTyp | Sethmin | Sethmax => (true, 8)
  | Ani | Optim | OptimLES | Noinsert | Noswap | Nomove | Nosurf | Nosizreq => (false, 8)
  | _ => (true, 32)
  end.

(** Conversion of an integer to the type of a member (two's complement) *)
Definition conv (c : cfg) (f : ifield) (v : Z) : Z :=
  let '(s, b) := ctype c f in
  if s then (v + 2 ^ (b - 1)) mod 2 ^ b - 2 ^ (b - 1) else v mod 2 ^ b.

(** Doubles are modelled by reals. *)
Record info := mkInfo { iv : ifield -> Z; dv : dfield -> R }.

Definition seti (c : cfg) (s : info) (f : ifield) (v : Z) : info :=
  mkInfo (fun g => if ifield_dec g f then conv c f v else iv s g) (dv s).
Definition setd (s : info) (f : dfield) (v : R) : info :=
  mkInfo (iv s) (fun g => if dfield_dec g f then v else dv s g).

(** [enum MMG3D_Param], libmmg3d.h:143-181 *)
Inductive iparam :=
| I_verbose | I_mem | I_debug | I_angle | I_iso | I_isosurf | I_nofem | I_opnbdy | I_lag
| I_optim | I_optimLES | I_noinsert | I_noswap | I_nomove | I_nosurf | I_nreg | I_xreg
| I_numberOfLocalParam | I_numberOfLSBaseReferences | I_numberOfMat | I_numsubdomain
| I_renum | I_anisosize | I_octree | I_nosizreq | I_isoref.

Inductive dparam := D_angleDetection | D_hmin | D_hmax | D_hsiz | D_hausd | D_hgrad | D_hgradreq | D_ls | D_xreg | D_rmc.

Definition iparams : list iparam :=
  [I_verbose; I_mem; I_debug; I_angle; I_iso; I_isosurf; I_nofem; I_opnbdy; I_lag;
   I_optim; I_optimLES; I_noinsert; I_noswap; I_nomove; I_nosurf; I_nreg; I_xreg;
   I_numberOfLocalParam; I_numberOfLSBaseReferences; I_numberOfMat; I_numsubdomain;
   I_renum; I_anisosize; I_octree; I_nosizreq; I_isoref].

Definition dparams : list dparam :=
  [D_angleDetection; D_hmin; D_hmax; D_hsiz; D_hausd; D_hgrad; D_hgradreq; D_ls; D_xreg; D_rmc].

(** The cases of the switch that are compiled *)
Definition decode_i (c : cfg) (code : Z) : option iparam :=
  if (code <? 0) then None
  else match nth_error iparams (Z.to_nat code) with
       | Some I_octree => if pattern c then None else Some I_octree
       | Some I_renum => if scotch c then Some I_renum else None
       | o => o
       end.

Definition decode_d (code : Z) : option dparam :=
  if code <? 26 then None else nth_error dparams (Z.to_nat (code - 26)).

(** What the rest of the program answers during a call: [MMG3D_memOption] succeeds;
    there are no triangles or [MMG3D_skipIso] succeeds; the tables can be allocated. *)
Record world := mkW { mem_ok : bool; skip_ok : bool; alloc_ok : bool }.

(** MMG5_ANGEDG, mmgcommon_private.h:90 *)
Definition ANGEDG : R := (707106781186548 / 1000000000000000)%R.

(** [MMG3D_Set_iparameter], :2113-2295.  The tables of local parameters, materials and
    base references are modelled in MatModel.v; freeing old ridges and messages are
    left out. *)
Definition set_iparam (c : cfg) (w : world) (p : iparam) (val : Z) (s : info) : Z * info :=
  let put f := (1, seti c s f val) in
  let counted f s := if alloc_ok w then (1, s) else (0, s) in
  match p with
  | I_verbose => put Imprim
  | I_mem =>
    let s := if val <=? 0 then s else seti c s Mem val in
    if mem_ok w then (1, s) else (0, s)
  | I_octree => put Octree
  | I_debug => put Debug
  | I_angle => (1, setd s Dhd (if val =? 0 then (-1)%R else ANGEDG))
  | I_nofem => (1, seti c s Setfem (if val =? 1 then 0 else 1))
  | I_opnbdy => put Opnbdy
  | I_iso =>
    let s := seti c s Iso val in
    if negb (iv s Iso =? 0) && negb (skip_ok w) then (0, s) else (1, s)
  | I_isoref => put Isoref
  | I_isosurf => put Isosurf
  | I_lag =>
    if elas c then
      if (val <? 0) || (2 <? val) then (0, s)
      else
        let s := seti c s Lag val in
        if val <? 2 then (1, seti c s Noinsert 1) else (1, s)
    else (0, s)
  | I_numsubdomain => put Nsd
  | I_optim => put Optim
  | I_optimLES => put OptimLES
  | I_noinsert => put Noinsert
  | I_noswap => put Noswap
  | I_nomove => put Nomove
  | I_nosurf => put Nosurf
  | I_nreg => put Nreg
  | I_xreg => put Xreg
  | I_nosizreq => put Nosizreq
  | I_numberOfLocalParam => counted tt (seti c (seti c (seti c s Npar val) Npari 0) ParTyp 0)
  | I_numberOfLSBaseReferences => counted tt (seti c s Nbr val)
  | I_numberOfMat => counted tt (seti c (seti c s Nmat val) Nmati 0)
  | I_renum => put Renum
  | I_anisosize => put Ani
  end.

Definition Set_iparameter (c : cfg) (w : world) (code val : Z) (s : info) : Z * info :=
  match decode_i c code with Some p => set_iparam c w p val s | None => (0, s) end.

(** [MMG3D_Get_iparameter], :2297-2362 *)
Definition get_iparam (p : iparam) (s : info) : Z :=
  match p with
  | I_verbose => iv s Imprim
  | I_mem => iv s Mem
  | I_octree => iv s Octree
  | I_debug => iv s Debug
  | I_angle => if Rle_dec (dv s Dhd) 0 then 0 else 1
  | I_iso => iv s Iso
  | I_lag => iv s Lag
  | I_noinsert => iv s Noinsert
  | I_noswap => iv s Noswap
  | I_nomove => iv s Nomove
  | I_nosurf => iv s Nosurf
  | I_nreg => iv s Nreg
  | I_xreg => iv s Xreg
  | I_numberOfLocalParam => iv s Npar
  | I_numberOfMat => iv s Nmat
  | I_renum => iv s Renum
  | _ => 0
  end.

Definition Get_iparameter (c : cfg) (code : Z) (s : info) : Z :=
  match decode_i c code with Some p => get_iparam p s | None => 0 end.

(** MMG3D_VOLFRAC, libmmg3d_private.h:160 *)
Definition VOLFRAC : R := (1 / 100000)%R.

(** [MMG3D_Set_dparameter], :2364-2440 *)
Definition set_dparam (c : cfg) (p : dparam) (val : R) (s : info) : Z * info :=
  match p with
  | D_angleDetection => (1, setd s Dhd (cos (Rmax 0 (Rmin 180 val) * PI / 180)%R))
  | D_hmin => (1, setd (seti c s Sethmin 1) Hmin val)
  | D_hmax => (1, setd (seti c s Sethmax 1) Hmax val)
  | D_hsiz => (1, setd s Hsiz val)
  | D_hgrad => (1, setd s Hgrad (if Rle_dec val 0 then (-1)%R else ln val))
  | D_hgradreq => (1, setd s Hgradreq (if Rle_dec val 0 then (-1)%R else ln val))
  | D_hausd => if Rle_dec val 0 then (0, s) else (1, setd s Hausd val)
  | D_ls => (1, setd s Ls val)
  | D_xreg => if Rlt_dec val 0 then (1, s) else if Rlt_dec 1 val then (1, s) else (1, setd s Lxreg val)
  | D_rmc => (1, setd s Rmc (if Req_EM_T val 0 then VOLFRAC else val))
  end.

Definition Set_dparameter (c : cfg) (code : Z) (val : R) (s : info) : Z * info :=
  match decode_d code with Some p => set_dparam c p val s | None => (0, s) end.

(** ** Memory parameter and sizes of the arrays *)

(** Sizes of the mesh, capacities, [memMax], [info.mem] and the numbers of allocated
    vertices and tetrahedra (without the unused slot 0), [None] when there are no
    arrays. *)
Record caps := mkC { c_np : Z; c_nt : Z; c_ne : Z; c_nprism : Z; c_nquad : Z;
                     c_npmax : Z; c_nemax : Z; c_ntmax : Z; c_memMax : Z; c_mem : Z;
                     c_arr : option (Z * Z) }.

Definition MILLION : Z := 1048576.

(** [MMG5_memOption_memSet], tools.c:891-917: [phys] is the physical memory (not 0);
    the division by 0.5 doubles. *)
Definition mem_set (phys memMax mem : Z) : Z :=
  if mem <=? 0 then phys / 2
  else if 2 * memMax <? mem * MILLION then memMax
  else mem * MILLION.

(** MMG3D_NPMAX, NEMAX, NTMAX, libmmg3d_private.h:153-156 *)
Definition NPMAX : Z := 1000000.
Definition NEMAX : Z := 6000000.
Definition NTMAX : Z := 2000000.

(** [MMG3D_memOption], zaldy_3d.c:271-278, with the repartition of PoolModel.v (which
    leaves out [ntmax], restored here) *)
Definition mem_option (z : sizes) (phys : Z) (s : caps) : Z * caps :=
  let npmax := Z.max (3 * c_np s / 2) NPMAX in
  let nemax := Z.max (3 * c_ne s / 2) NEMAX in
  let ntmax := Z.max (3 * c_nt s / 2) NTMAX in
  let memMax := mem_set phys (c_memMax s) (c_mem s) in
  match memRepartition z memMax (c_np s) (c_nt s) (c_ne s) (c_nprism s) (c_nquad s) npmax nemax with
  | None => (0, mkC (c_np s) (c_nt s) (c_ne s) (c_nprism s) (c_nquad s) npmax nemax ntmax memMax (c_mem s) (c_arr s))
  | Some (npmax, nemax) =>
    let npadd := (memMax - used_mem z (c_np s) (c_nt s) (c_ne s) (c_nprism s) (c_nquad s)) / (2 * pt_bytes z) in
    (1, mkC (c_np s) (c_nt s) (c_ne s) (c_nprism s) (c_nquad s) npmax nemax (Z.min ntmax (2 * npadd + c_nt s)) memMax (c_mem s) (c_arr s))
  end.

(** The case MMG3D_IPARAM_mem, API_functions_3d.c:2121-2130 *)
Definition set_mem (z : sizes) (phys val : Z) (s : caps) : Z * caps :=
  let s := if val <=? 0 then s
           else mkC (c_np s) (c_nt s) (c_ne s) (c_nprism s) (c_nquad s) (c_npmax s) (c_nemax s) (c_ntmax s) (c_memMax s) val (c_arr s) in
  mem_option z phys s.

(** [MMG3D_Set_meshSize], API_functions_3d.c:264-288, and [MMG3D_setMeshSize_alloc],
    zaldy_3d.c:288-300, when the system grants the memory *)
Definition set_size (z : sizes) (phys np ne nprism nt nquad : Z) (s : caps) : Z * caps :=
  if np =? 0 then (0, s)
  else
    let s := mkC np nt ne nprism nquad (c_npmax s) (c_nemax s) (c_ntmax s) (c_memMax s) (c_mem s) None in
    let '(ok, s) :=
      if 0 <? c_mem s then
        if (c_npmax s <? np) || (c_ntmax s <? nt) || (c_nemax s <? ne) then mem_option z phys s
        else if c_mem s <? 39 then (0, s) else (1, s)
      else mem_option z phys s in
    if ok =? 0 then (0, s)
    else (1, mkC np nt ne nprism nquad (c_npmax s) (c_nemax s) (c_ntmax s) (c_memMax s) (c_mem s) (Some (c_npmax s, c_nemax s))).
