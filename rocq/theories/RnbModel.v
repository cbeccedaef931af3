(** Model of the renumbering of a 3D mesh: src/common/librnbg.c:150-213
    ([MMG5_swapNod]) and src/mmg3d/librnbg_3d.c:51-96, 115-423 ([MMG5_swapTet],
    [MMG5_mmg3dRenumbering]).

    The order of the elements comes from SCOTCH, an external library: it is the
    argument [ord] below, the table [permVrtTab].  Not modelled: the graph handed
    to SCOTCH (librnbg_3d.c:148-277), the memory limit and the early returns that
    leave the mesh untouched. *)
From Coq Require Import ZArith QArith List Bool.
From Verif Require Import CBase Chain MeshModel PoolModel PackModel AdjaModel.
Import ListNotations.
Open Scope Z_scope.

(** ** Swaps *)

(** memcpy through a local buffer, librnbg_3d.c:87-90, librnbg.c:167-169 *)
Definition swap2 {A} (a : arr A) (i j : Z) : outcome (arr A) :=
  y <- rd a j ;; x <- rd a i ;; a1 <- wr a j x ;; wr a1 i y.

(** [MMG5_swapTet], librnbg_3d.c:51-96, without the permutation table. *)
Definition swap_tet (a : arr tetra) (i j : Z) : outcome (arr tetra) := swap2 a i j.

(** A solution: number of values per vertex and the flat array of values. *)
Record field := mkF { fsz : Z; fval : arr Q }.

(** Swap of the blocks of two vertices, librnbg.c:172-178, 188-193 and 202-206.
    The local buffer [soltmp] is a [MMG5_Sol], 72 bytes: nine doubles. *)
Definition swap_field (f : field) (i j : Z) : outcome field :=
  _ <- c_assert (fsz f <=? 9) ;;
  a <- for_range 0 (fsz f - 1) (fun c a => swap2 a (i * fsz f + c) (j * fsz f + c)) (fval f) ;;
  Ret (mkF (fsz f) a).

Fixpoint swap_fields (l : list field) (i j : Z) : outcome (list field) :=
  match l with
  | [] => Ret []
  | f :: l => f1 <- swap_field f i j ;; l1 <- swap_fields l i j ;; Ret (f1 :: l1)
  end.

(** [MMG5_swapNod], librnbg.c:158-213, without the permutation table.  The list
    holds the metric [sols] when it exists and the arrays of [field]. *)
Definition swap_nod (x : arr point * list field) (i j : Z) : outcome (arr point * list field) :=
  p <- swap2 (fst x) i j ;; l <- swap_fields (snd x) i j ;; Ret (p, l).

(** ** In place permutation, librnbg_3d.c:288-291 and 385-388 *)

(** [while ( perm\[k\] != k && perm\[k\] ) swap(k,perm\[k\])].  The swap of the
    data comes first, then that of the table (librnbg_3d.c:92-95). *)
Fixpoint fix_slot {X} (fuel : nat) (swap : X -> Z -> Z -> outcome X) (k : Z) (st : X * arr Z) : outcome (X * arr Z) :=
  match fuel with
  | O => Stuck
  | S fuel =>
    p <- rd (snd st) k ;;
    if (p =? k) || (p =? 0) then Ret st
    else
      x <- swap (fst st) k p ;;
      t <- swap2 (snd st) k p ;;
      fix_slot fuel swap k (x, t)
  end.

Definition permute {X} (n : Z) (swap : X -> Z -> Z -> outcome X) (x : X) (perm : arr Z) : outcome (X * arr Z) :=
  for_range 1 n (fun k st => fix_slot (S (Z.to_nat n)) swap k st) (x, perm).

(** ** New numbers *)

(** librnbg_3d.c:136-141: rank of the live elements; then 282-285: place given
    by SCOTCH. *)
Definition tet_rank (ne : Z) (tet : arr tetra) : outcome (arr Z * Z) :=
  for_range 1 ne (fun k st =>
    let '(old, n) := st in
    t <- rd tet k ;;
    if v0 t =? 0 then Ret st else old1 <- wr old k (n + 1) ;; Ret (old1, n + 1)) (acalloc (ne + 1) 0, 0).
Definition tet_place (ne : Z) (tet : arr tetra) (ord old : arr Z) : outcome (arr Z) :=
  for_range 1 ne (fun k old =>
    t <- rd tet k ;;
    if v0 t =? 0 then Ret old else r <- rd old k ;; q <- rd ord r ;; wr old k q) old.

(** One vertex, librnbg_3d.c:309-317 and 326-334. *)
Definition visit (pt : arr point) (v : Z) (st : arr Z * Z) : outcome (arr Z * Z) :=
  let '(perm, n) := st in
  x <- rd perm v ;;
  if negb (x =? 0) then Ret st
  else
    p <- rd pt v ;;
    if negb (Z.land (ptag p) MG_NUL =? 0) then Ret st
    else perm1 <- wr perm v (n + 1) ;; Ret (perm1, n + 1).
Fixpoint visits (pt : arr point) (l : list Z) (st : arr Z * Z) : outcome (arr Z * Z) :=
  match l with
  | [] => Ret st
  | v :: l => st1 <- visit pt v st ;; visits pt l st1
  end.
Definition tverts (t : tetra) : list Z := [v0 t; v1 t; v2 t; v3 t].

(** librnbg_3d.c:299-351.  State: the table [permNodTab] and [npreal]; [nereal] is
    counted apart.  A prism is the list of its six vertices; it exists when the
    first one is positive. *)
Definition pok (l : list Z) : bool := 0 <? hd 0 l.
Definition number_pts (np ne npr : Z) (pt : arr point) (tet : arr tetra) (pri : arr (list Z))
  : outcome (arr Z * Z * Z) :=
  '(st1, nereal) <- for_range 1 ne (fun k (x : arr Z * Z * Z) =>
    let '(st, n) := x in
    t <- rd tet k ;;
    if v0 t =? 0 then Ret x else st' <- visits pt (tverts t) st ;; Ret (st', n + 1)) ((acalloc (np + 1) 0, 0), 0) ;;
  st2 <- for_range 1 npr (fun k st =>
    l <- rd pri k ;; if pok l then visits pt l st else Ret st) st1 ;;
  '(perm, npreal) <- for_range 1 np (fun k st =>
    let '(perm, n) := st in
    p <- rd pt k ;;
    if negb (vok p) then Ret st
    else
      x <- rd perm k ;;
      if negb (x =? 0) then Ret st
      else if Z.land (ptag p) MG_REQ =? 0 then Ret st
      else perm1 <- wr perm k (n + 1) ;; Ret (perm1, n + 1)) st2 ;;
  Ret (perm, npreal, nereal).

(** ** New vertices of the elements, librnbg_3d.c:353-372 *)
Definition ren_tet (perm : arr Z) (t : tetra) : outcome tetra :=
  a <- rd perm (v0 t) ;; b <- rd perm (v1 t) ;; c <- rd perm (v2 t) ;; d <- rd perm (v3 t) ;;
  Ret (mkT a b c d (tref t) (txt t) (tmark t) (tq t)).
Fixpoint ren_list (perm : arr Z) (l : list Z) : outcome (list Z) :=
  match l with
  | [] => Ret []
  | v :: l => a <- rd perm v ;; r <- ren_list perm l ;; Ret (a :: r)
  end.
Definition ren_tets (perm : arr Z) (n : Z) (tet : arr tetra) : outcome (arr tetra) :=
  for_range 1 n (fun k tet => t <- rd tet k ;; t1 <- ren_tet perm t ;; wr tet k t1) tet.
Definition ren_lists (perm : arr Z) (n : Z) (el : arr (list Z)) : outcome (arr (list Z)) :=
  for_range 1 n (fun k el => l <- rd el k ;; l1 <- ren_list perm l ;; wr el k l1) el.

(** [permNodGlob], librnbg_3d.c:374-382 *)
Definition ren_glob (perm : arr Z) (npi : Z) (pt : arr point) (glob : arr Z) : outcome (arr Z) :=
  for_range 1 npi (fun k glob =>
    g <- rd glob k ;; p <- rd pt g ;;
    if vok p then x <- rd perm g ;; _ <- c_assert (0 <? x) ;; wr glob k x else Ret glob) glob.

(** ** The whole function *)

(** The part of a mesh that is renumbered.  [rglob]: the optional array
    [permNodGlob], of [rnpi] entries. *)
Record rmesh := mkR {
  rnp : Z; rnpnil : Z; rnpmax : Z; rpt : arr point; rsol : list field;
  rne : Z; rnenil : Z; rnemax : Z; rtet : arr tetra;
  rnpr : Z; rpri : arr (list Z); rnq : Z; rquad : arr (list Z);
  rnpi : Z; rglob : option (arr Z)
}.

(** librnbg_3d.c:394-418 *)
Definition relink_pts (np npmax : Z) (a : arr point) : outcome (Z * arr point) :=
  if npmax - 1 <=? np then Ret (0, a)
  else
    a1 <- link_pts (np + 1) (npmax - 1) a ;;
    p <- rd a1 (npmax - 1) ;; a2 <- wr a1 (npmax - 1) (PoolModel.set_tmp p 0) ;;
    q <- rd a2 npmax ;; a3 <- wr a2 npmax (PoolModel.set_tmp q 0) ;;
    Ret (np + 1, a3).
Definition relink_tets (ne nemax : Z) (a : arr tetra) : outcome (Z * arr tetra) :=
  if nemax - 1 <=? ne then Ret (0, a)
  else
    a1 <- link_tets (ne + 1) (nemax - 1) a ;;
    p <- rd a1 (nemax - 1) ;; a2 <- wr a1 (nemax - 1) (set_v3 p 0) ;;
    q <- rd a2 nemax ;; a3 <- wr a2 nemax (set_v3 q 0) ;;
    Ret (ne + 1, a3).

(** librnbg_3d.c:279-422.  Result: the renumbered mesh and its adjacency. *)
Definition renumber (inival : Z) (ord : arr Z) (m : rmesh) : outcome (rmesh * arr Z) :=
  '(old, _) <- tet_rank (rne m) (rtet m) ;;
  place <- tet_place (rne m) (rtet m) ord old ;;
  '(tet1, _) <- permute (rne m) swap_tet (rtet m) place ;;
  '(perm, npreal, nereal) <- number_pts (rnp m) (rne m) (rnpr m) (rpt m) tet1 (rpri m) ;;
  tet2 <- ren_tets perm nereal tet1 ;;
  pri2 <- ren_lists perm (rnpr m) (rpri m) ;;
  quad2 <- ren_lists perm (rnq m) (rquad m) ;;
  glob2 <- (match rglob m with
            | None => Ret None
            | Some g => g2 <- ren_glob perm (rnpi m) (rpt m) g ;; Ret (Some g2)
            end) ;;
  '((pt2, sol2), _) <- permute (rnp m) swap_nod (rpt m, rsol m) perm ;;
  '(npnil, pt3) <- relink_pts npreal (rnpmax m) pt2 ;;
  '(nenil, tet3) <- relink_tets nereal (rnemax m) tet2 ;;
  adj <- hashTetra inival nereal (rnemax m) tet3 ;;
  Ret (mkR npreal npnil (rnpmax m) pt3 sol2 nereal nenil (rnemax m) tet3
         (rnpr m) pri2 (rnq m) quad2 (rnpi m) glob2, adj).
