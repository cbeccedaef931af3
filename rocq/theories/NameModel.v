(** File names: extensions, formats and names derived from one another. *)
From Coq Require Import Ascii String List Arith Bool.
From Verif Require Import CBase.
Import ListNotations.

(** A C string is the list of its characters before the final zero; a pointer into
    it is an offset; NULL is [None].  [txt] turns a literal into such a list. *)
Definition txt (s : String.string) : list ascii := list_ascii_of_string s.
Definition dotc : ascii := "."%char.
Definition sep : ascii := "/"%char.

(** ** The functions of the C library used *)

(** [strrchr]: offset of the last occurrence. *)
Fixpoint strrchr (c : ascii) (s : list ascii) : option nat :=
  match s with
  | [] => None
  | a :: s => match strrchr c s with
              | Some i => Some (S i)
              | None => if Ascii.eqb a c then Some 0 else None
              end
  end.

(** [!strncmp(p,k,strlen(k))] *)
Fixpoint starts (k p : list ascii) : bool :=
  match k, p with
  | [], _ => true
  | a :: k, b :: p => Ascii.eqb a b && starts k p
  | _ :: _, [] => false
  end.

(** [!strcmp(a,b)] *)
Fixpoint streq (a b : list ascii) : bool :=
  match a, b with
  | [], [] => true
  | x :: a, y :: b => Ascii.eqb x y && streq a b
  | _, _ => false
  end.

(** [strstr]: offset of the first occurrence of [k]. *)
Fixpoint strstr (s k : list ascii) : option nat :=
  if starts k s then Some 0
  else match s with
       | [] => None
       | _ :: s => match strstr s k with Some i => Some (S i) | None => None end
       end.

(** [strcpy] and [strcat] into a buffer of [cap] bytes: past the end is undefined. *)
Definition strcpy (cap : nat) (s : list ascii) : outcome (list ascii) :=
  if Nat.ltb (length s) cap then Ret s else Stuck.
Definition strcat (cap : nat) (s t : list ascii) : outcome (list ascii) :=
  if Nat.ltb (length s + length t) cap then Ret (s ++ t) else Stuck.

(** ** Formats *)

(** libmmgtypes.h:240-252 *)
Inductive format :=
  MeditASCII | MeditBinary | GmshASCII | GmshBinary | VtkPvtp | VtkPvtu
| VtkVtu | VtkVtp | VtkVtk | Tetgen | Unknown.

Definition is_unknown (f : format) : bool := match f with Unknown => true | _ => false end.

(** [MMG5_Get_format], API_functions.c:816-853.  The literal 0 passed at :289 is
    [MeditASCII], the first of the enumeration. *)
Definition Get_format (ptr : option (list ascii)) (fmt : format) : format :=
  match ptr with
  | None => fmt
  | Some p =>
    if starts (txt ".meshb") p then MeditBinary
    else if starts (txt ".mesh") p then MeditASCII
    else if starts (txt ".mshb") p then GmshBinary
    else if starts (txt ".msh") p then GmshASCII
    else if starts (txt ".pvtu") p then VtkPvtu
    else if starts (txt ".vtu") p then VtkVtu
    else if starts (txt ".pvtp") p then VtkPvtp
    else if starts (txt ".vtp") p then VtkVtp
    else if starts (txt ".vtk") p then VtkVtk
    else if starts (txt ".node") p then Tetgen
    else fmt
  end.

(** [lastpath>dot], API_functions.c:923: NULL compares as the address 0.  (The
    comparison of NULL with a pointer into the name has no meaning in the standard;
    every compiler supported compares addresses.) *)
Definition beyond (lastpath : option nat) (dot : nat) : bool :=
  match lastpath with None => false | Some l => Nat.ltb dot l end.

(** [MMG5_Get_filenameExt], API_functions.c:912-929: offset in the name. *)
Definition Get_filenameExt (filename : option (list ascii)) : option nat :=
  match filename with
  | None => None
  | Some f =>
    let dot := strrchr dotc f in
    let lastpath := strrchr sep f in
    match dot with
    | None => Some (length f)
    | Some d =>
      if Nat.eqb d 0 || beyond lastpath d || streq (skipn d f) (txt ".o")
      then Some (length f) else Some d
    end
  end.

(** The string pointed to. *)
Definition at_ (f : option (list ascii)) (p : option nat) : option (list ascii) :=
  match f, p with Some f, Some p => Some (skipn p f) | _, _ => None end.

(** The idiom of all the readers and writers (for instance inout_3d.c:1219-1220,
    mmg3d.c:369-370): format of a file from its name. *)
Definition format_of (name : option (list ascii)) (dflt : format) : format :=
  Get_format (at_ name (Get_filenameExt name)) dflt.

(** The suffix appended for each format, API_functions.c:299-320; in the cases not
    listed the default of the switch applies. *)
Definition suffix (f : format) : list ascii :=
  match f with
  | GmshASCII => txt ".msh"
  | GmshBinary => txt ".mshb"
  | VtkVtu => txt ".vtu"
  | VtkVtp => txt ".vtp"
  | VtkVtk => txt ".vtk"
  | MeditBinary => txt ".meshb"
  | _ => txt ".mesh"
  end.

(** The same switch with [.o], API_functions.c:337-361. *)
Definition osuffix (f : format) : list ascii :=
  match f with
  | GmshASCII => txt ".o.msh"
  | GmshBinary => txt ".o.mshb"
  | VtkVtu => txt ".o.vtu"
  | VtkVtp => txt ".o.vtp"
  | VtkVtk => txt ".o.vtk"
  | MeditBinary => txt ".o.meshb"
  | _ => txt ".o.mesh"
  end.

Definition given (s : option (list ascii)) : option (list ascii) :=
  match s with Some [] => None | s => s end.

(** ** The names held by the structures *)

(** [mesh->namein], [mesh->nameout], [sol->namein], [sol->nameout]. *)
Record names := mkNames { m_in : option (list ascii); m_out : option (list ascii);
                          s_in : option (list ascii); s_out : option (list ascii) }.

Definition set_m_in (n : names) v := mkNames v (m_out n) (s_in n) (s_out n).
Definition set_m_out (n : names) v := mkNames (m_in n) v (s_in n) (s_out n).
Definition set_s_in (n : names) v := mkNames (m_in n) (m_out n) v (s_out n).
Definition set_s_out (n : names) v := mkNames (m_in n) (m_out n) (s_in n) v.

(** The functions below take [mem], which says whether the memory asked for is
    granted (the counter and the system together, see MemModel.v). *)

(** [MMG5_Set_inputMeshName], API_functions.c:153-179 *)
Definition Set_inputMeshName (mem : bool) (n : names) (meshin : option (list ascii))
  : outcome (bool * names) :=
  let n := set_m_in n None in
  if negb mem then Ret (false, n)
  else match given meshin with
       | Some s => r <- strcpy (length s + 1) s ;; Ret (true, set_m_in n (Some r))
       | None => r <- strcpy 10 (txt "mesh.mesh") ;; Ret (true, set_m_in n (Some r))
       end.

(** [strrchr(f,'.')] then [strstr(dot,".mesh")], API_functions.c:209-213,405-409,
    419-423 *)
Definition mesh_dot (f : list ascii) : option nat :=
  match strrchr dotc f with
  | None => None
  | Some d => match strstr (skipn d f) (txt ".mesh") with
              | Some i => Some (d + i)
              | None => None
              end
  end.

Definition cut (f : list ascii) (p : option nat) : list ascii :=
  match p with Some p => firstn p f | None => f end.

(** [MMG5_Set_inputSolName], API_functions.c:189-234.  Of the first of the three
    requests for memory of the middle branch only the common outcome is kept. *)
Definition Set_inputSolName (mem : bool) (n : names) (solin : option (list ascii))
  : outcome (bool * names) :=
  let n := set_s_in n None in
  if negb mem then Ret (false, n)
  else match given solin with
       | Some s => r <- strcpy (length s + 1) s ;; Ret (true, set_s_in n (Some r))
       | None =>
         match given (m_in n) with
         | Some f =>
           b <- strcpy (length f + 1) f ;;
           let b := cut b (mesh_dot b) in
           r <- strcat (length b + 5) b (txt ".sol") ;;
           Ret (true, set_s_in n (Some r))
         | None => r <- strcpy 9 (txt "mesh.sol") ;; Ret (true, set_s_in n (Some r))
         end
       end.

(** [MMG5_Set_outputMeshName], API_functions.c:273-376 *)
Definition Set_outputMeshName (mem : bool) (n : names) (meshout : option (list ascii))
  : outcome (bool * names) :=
  let n := set_m_out n None in
  if negb mem then Ret (false, n)
  else match given meshout with
       | Some s =>
         let ptr := strrchr dotc s in
         let cap := length s + 7 in
         _ <- strcpy cap s ;;
         let noext := match ptr with
                      | None => true
                      | Some p => is_unknown (Get_format (Some (skipn p s)) MeditASCII) || Nat.eqb p 0
                      end in
         let fmtin := format_of (m_in n) MeditASCII in
         b <- strcpy cap s ;;
         r <- (if noext then strcat cap b (suffix fmtin) else Ret b) ;;
         Ret (true, set_m_out n (Some r))
       | None =>
         match given (m_in n) with
         | Some f =>
           let cap := length f + 9 in
           b <- strcpy cap f ;;
           let ptr := Get_filenameExt (Some b) in
           let fmt := Get_format (at_ (Some b) ptr) MeditASCII in
           r <- strcat cap (cut b ptr) (osuffix fmt) ;;
           Ret (true, set_m_out n (Some r))
         | None => r <- strcpy 12 (txt "mesh.o.mesh") ;; Ret (true, set_m_out n (Some r))
         end
       end.

(** [MMG5_Set_outputSolName], API_functions.c:388-444 *)
Definition Set_outputSolName (mem : bool) (n : names) (solout : option (list ascii))
  : outcome (bool * names) :=
  let n := set_s_out n None in
  match given solout with
  | Some s =>
    if negb mem then Ret (false, n)
    else r <- strcpy (length s + 1) s ;; Ret (true, set_s_out n (Some r))
  | None =>
    match given (m_out n) with
    | Some f =>
      if negb mem then Ret (false, n)
      else
        let cap := match mesh_dot f with Some _ => length f + 1 | None => length f + 6 end in
        b <- strcpy cap f ;;
        let b := cut b (mesh_dot b) in
        r <- strcat (length b + 5) b (txt ".sol") ;;
        Ret (true, set_s_out n (Some r))
    | None => Ret (false, n)
    end
  end.

(** [MMG5_Get_basename], API_functions.c:683-690 *)
Definition Get_basename (path : list ascii) : list ascii :=
  match strrchr sep path with
  | None => path
  | Some s => skipn (s + 1) path
  end.

(** [MMG5_Get_path], API_functions.c:939-964 *)
Definition Get_path (path : option (list ascii)) : option (list ascii) :=
  match path with
  | None => None
  | Some p => match strrchr sep p with
              | None => None
              | Some l => Some (firstn l p)
              end
  end.

(** [MMG5_Remove_ext], API_functions.c:974-1015 *)
Definition Remove_ext (path ext : option (list ascii)) : option (list ascii) :=
  let extloc := match given ext with None => txt "." | Some e => e end in
  match path with
  | None => None
  | Some p =>
    match strstr p extloc with
    | None => Some p
    | Some e => if beyond (strrchr sep p) e then Some p else Some (firstn e p)
    end
  end.

(** ** The parameter file *)

Inductive found := Opened (f : list ascii) | Default | NotFound.

(** Which file [MMG3D_parsop] opens, libmmg3d_tools.c:768-812, up to the point where
    it starts reading: [ex] tells which files exist.  [Default] is the return of 1
    without reading anything (:800), [NotFound] the return of 0 (:808).  [data] has
    256 bytes; [sprintf(data,"%s",literal)] is a copy.  The mesh name is read only
    when no parameter file is named; copying NULL is undefined. *)
Definition parsop3d_open (ex : list ascii -> bool) (namein fparam : option (list ascii))
  : outcome found :=
  data <- match fparam with
          | Some f => strcpy 256 f
          | None => match namein with Some f => strcpy 256 f | None => Stuck end
          end ;;
  data <- strcat 256 (cut data (Get_filenameExt (Some data))) (txt ".mmg3d") ;;
  if ex data then Ret (Opened data)
  else match fparam with
       | Some _ => Ret NotFound
       | None =>
         data <- strcat 256 data (txt ".mmg3d5") ;;
         if ex data then Ret (Opened data)
         else
           data <- strcpy 256 (txt "DEFAULT.mmg3d") ;;
           if ex data then Ret (Opened data)
           else
             data <- strcpy 256 (txt "DEFAULT.mmg3d5") ;;
             if ex data then Ret (Opened data) else Ret Default
       end.
