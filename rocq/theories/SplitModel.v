(** Splitting patterns of a tetrahedron (src/mmg3d/split_3d.c).

    The C functions are long lists of assignments
      [pt\[j\]->v\[tau\[i\]\] = vx\[taued\[e\]\]],
      [xt\[j\].tag\[taued\[e\]\] = ftag\[tau\[f\]\]], ...
    to local copies of the parent tetrahedron.  Each of them is one constructor
    of [asg]; the lists below follow the order of the C statements.  Vertices
    and boundary data are polymorphic, so that the same interpreter runs on
    integers (the C values) and on symbolic names.

    Not modelled here: the creation of the new tetrahedra ([MMG3D_newElt],
    modelled in PoolModel.v), the growth of the tables and the quality update. *)
From Coq Require Import ZArith List Lia Bool Arith.
From Verif Require Import CBase.
Import ListNotations.
Open Scope nat_scope.

(** ** Tables (libmmg3d_private.h:176-216) *)

(** [MMG5_idir]: vertices of face [i] (libmmg3d_private.h:176). *)
Definition idir (i : nat) : list nat :=
  nth i [[1; 2; 3]; [0; 3; 2]; [0; 1; 3]; [0; 2; 1]] [].
(** [MMG5_iare]: end points of edge [e] (libmmg3d_private.h:184). *)
Definition iare (e : nat) : nat * nat :=
  nth e [(0, 1); (0, 2); (0, 3); (1, 2); (1, 3); (2, 3)] (0, 0).
(** [MMG5_permedge] (libmmg3d_private.h:213-216). *)
Definition permedge (k : nat) : list nat :=
  nth k [[0; 1; 2; 3; 4; 5]; [1; 2; 0; 5; 3; 4]; [2; 0; 1; 4; 5; 3]; [0; 4; 3; 2; 1; 5];
         [3; 0; 4; 1; 5; 2]; [4; 3; 0; 5; 2; 1]; [1; 3; 5; 0; 2; 4]; [3; 5; 1; 4; 0; 2];
         [5; 1; 3; 2; 4; 0]; [2; 5; 4; 1; 0; 3]; [4; 2; 5; 0; 3; 1]; [5; 4; 2; 3; 1; 0]] [].

(** ** Statements *)

(** Assignments of the splitting functions; indices are those written in C,
    before the permutations [tau] and [taued]. *)
Inductive asg : Type :=
| AV (j i e : nat)    (** pt[j]->v[tau[i]] = vx[taued[e]] *)
| AT (j e f : nat)    (** xt[j].tag[taued[e]] = ftag[tau[f]] *)
| AT0 (j e : nat)     (** xt[j].tag[taued[e]] = 0 *)
| AE0 (j e : nat)     (** xt[j].edg[taued[e]] = 0 *)
| AR0 (j f : nat)     (** xt[j].ref[tau[f]] = 0 *)
| AF0 (j f : nat)     (** xt[j].ftag[tau[f]] = 0 *)
| AO (j f : nat).     (** MG_SET(xt[j].ori, tau[f]) *)

(** Statements of the simulation functions on the scratch tetrahedron [pt0]. *)
Inductive sasg : Type :=
| SCopy               (** memcpy(pt0,pt,sizeof(MMG5_Tetra)) *)
| SV (i e : nat)      (** pt0->v[tau[i]] = vx[taued[e]] *)
| SP (i k : nat)      (** pt0->v[i] = pt->v[k] *)
| STest.              (** if ( MMG5_orvol(mesh->point,pt0->v) < MMG5_EPSOK ) return 0 *)

Definition seqp {A} (p q : outcome (list A)) : outcome (list A) :=
  a <- p ;; b <- q ;; Ret (a ++ b).
Notation "p +++ q" := (seqp p q) (at level 60, right associativity).
Notation "e ;;; f" := (bind e (fun _ => f)) (at level 61, right associativity).

(** [MMG3D_split1_cfg, split_3d.c:53-82].  Returns (tau, taued). *)
Definition split1_cfg (flag : nat) : list nat * list nat :=
  match flag with
  | 2 => ([2; 0; 1; 3], permedge 6)
  | 4 => ([0; 3; 1; 2], permedge 2)
  | 8 => ([1; 2; 0; 3], permedge 4)
  | 16 => ([3; 1; 0; 2], permedge 10)
  | 32 => ([3; 2; 1; 0], permedge 11)
  | _ => ([0; 1; 2; 3], permedge 0)
  end%nat.

(** [MMG3D_split2sf_cfg, split_3d.c:1037-1090].  Returns (tau, taued). *)
Definition split2sf_cfg (flag : nat) : list nat * list nat :=
  match flag with
  | 24 => ([0; 2; 3; 1], permedge 1)
  | 40 => ([0; 3; 1; 2], permedge 2)
  | 6 => ([1; 3; 2; 0], permedge 5)
  | 34 => ([1; 0; 3; 2], permedge 3)
  | 36 => ([1; 2; 0; 3], permedge 4)
  | 20 => ([2; 0; 1; 3], permedge 6)
  | 5 => ([2; 1; 3; 0], permedge 7)
  | 17 => ([2; 3; 0; 1], permedge 8)
  | 9 => ([3; 0; 2; 1], permedge 9)
  | 3 => ([3; 2; 1; 0], permedge 11)
  | 10 => ([3; 1; 0; 2], permedge 10)
  | _ => ([0; 1; 2; 3], permedge 0)
  end%nat.

(** [MMG5_split2, split_3d.c:1511-1523; same table at 1438-1451].  Returns (tau, taued). *)
Definition split2_cfg (flag : nat) : list nat * list nat :=
  match flag with
  | 18 => ([3; 1; 0; 2], permedge 10)
  | 12 => ([0; 3; 1; 2], permedge 2)
  | _ => ([0; 1; 2; 3], permedge 0)
  end%nat.

(** [MMG5_split3, split_3d.c:1734-1750; same table at 1648-1663].  Returns (tau, taued). *)
Definition split3_cfg (flag : nat) : list nat * list nat :=
  match flag with
  | 21 => ([0; 3; 1; 2], permedge 2)
  | 38 => ([3; 0; 2; 1], permedge 9)
  | 56 => ([1; 3; 2; 0], permedge 5)
  | _ => ([0; 1; 2; 3], permedge 0)
  end%nat.

(** [MMG3D_split3cone_cfg, split_3d.c:1863-1886].  Returns (tau, taued). *)
Definition split3cone_cfg (flag : nat) : list nat * list nat :=
  match flag with
  | 25 => ([1; 2; 0; 3], permedge 4)
  | 42 => ([2; 0; 1; 3], permedge 6)
  | 52 => ([3; 1; 0; 2], permedge 10)
  | _ => ([0; 1; 2; 3], permedge 0)
  end%nat.

(** [MMG3D_split3op_cfg, split_3d.c:2375-2491].  Returns (tau, taued, sym, symed). *)
Definition split3op_cfg (flag : nat) : list nat * list nat * list nat * list nat :=
  match flag with
  | 19 => ([0; 1; 2; 3], permedge 0, [0; 2; 1; 3], [1; 0; 2; 3; 5; 4])
  | 13 => ([0; 3; 1; 2], permedge 2, [0; 1; 2; 3], [0; 1; 2; 3; 4; 5])
  | 37 => ([0; 3; 1; 2], permedge 2, [0; 2; 1; 3], [1; 0; 2; 3; 5; 4])
  | 22 => ([3; 1; 0; 2], permedge 10, [0; 1; 2; 3], [0; 1; 2; 3; 4; 5])
  | 28 => ([3; 1; 0; 2], permedge 10, [0; 2; 1; 3], [1; 0; 2; 3; 5; 4])
  | 26 => ([2; 0; 1; 3], permedge 6, [0; 1; 2; 3], [0; 1; 2; 3; 4; 5])
  | 14 => ([0; 2; 3; 1], permedge 1, [0; 2; 1; 3], [1; 0; 2; 3; 5; 4])
  | 49 => ([3; 2; 1; 0], permedge 11, [0; 1; 2; 3], [0; 1; 2; 3; 4; 5])
  | 50 => ([3; 2; 1; 0], permedge 11, [0; 2; 1; 3], [1; 0; 2; 3; 5; 4])
  | 44 => ([3; 0; 2; 1], permedge 9, [0; 1; 2; 3], [0; 1; 2; 3; 4; 5])
  | 41 => ([1; 2; 0; 3], permedge 4, [0; 2; 1; 3], [1; 0; 2; 3; 5; 4])
  | _ => ([0; 1; 2; 3], permedge 0, [0; 1; 2; 3], [0; 1; 2; 3; 4; 5])
  end%nat.

(** [MMG3D_split4sf_cfg, split_3d.c:3260-3320].  Returns (tau, taued). *)
Definition split4sf_cfg (flag : nat) : list nat * list nat :=
  match flag with
  | 29 => ([1; 3; 2; 0], permedge 5)
  | 53 => ([3; 0; 2; 1], permedge 9)
  | 60 => ([3; 1; 0; 2], permedge 10)
  | 57 => ([1; 2; 0; 3], permedge 4)
  | 58 => ([2; 3; 0; 1], permedge 8)
  | 27 => ([1; 0; 3; 2], permedge 3)
  | 15 => ([0; 2; 3; 1], permedge 1)
  | 43 => ([2; 1; 3; 0], permedge 7)
  | 39 => ([0; 3; 1; 2], permedge 2)
  | 54 => ([3; 2; 1; 0], permedge 11)
  | 46 => ([2; 0; 1; 3], permedge 6)
  | _ => ([0; 1; 2; 3], permedge 0)
  end%nat.

(** [MMG3D_split4op_cfg, split_3d.c:3649-3667; same table at 3701-3713].  Returns (tau, taued). *)
Definition split4op_cfg (flag : nat) : list nat * list nat :=
  match flag with
  | 45 => ([1; 3; 2; 0], permedge 5)
  | 51 => ([1; 2; 0; 3], permedge 4)
  | _ => ([0; 1; 2; 3], permedge 0)
  end%nat.

(** [MMG3D_split5_cfg, split_3d.c:4062-4094].  Returns (tau, taued). *)
Definition split5_cfg (flag : nat) : list nat * list nat :=
  match flag with
  | 61 => ([2; 0; 1; 3], permedge 6)
  | 59 => ([0; 3; 1; 2], permedge 2)
  | 55 => ([1; 2; 0; 3], permedge 4)
  | 47 => ([3; 1; 0; 2], permedge 10)
  | 31 => ([3; 2; 1; 0], permedge 11)
  | _ => ([0; 1; 2; 3], permedge 0)
  end%nat.

(** [MMG5_split1] (split_3d.c:178-188). *)
Definition split1_prog : outcome (list asg) :=
  Ret [AV 0 1 0; AV 1 0 0;
         AT 0 3 3; AT 0 4 2;
         AT 1 1 3; AT 1 2 2;
         AE0 0 3; AE0 0 4;
         AE0 1 1; AE0 1 2;
         AR0 0 0; AF0 0 0; AO 0 0;
         AR0 1 1; AF0 1 1; AO 1 1].

(** [MMG5_split2sf_globNum] (split_3d.c:1310-1349) with the choice of diagonals (split_3d.c:1089). *)
Definition split2sf_prog (lt : nat -> nat -> bool) (t0 t1 t2 t3 : nat) : outcome (list asg) :=
  let imin := if lt t1 t2 then t1 else t2 in
  Ret [AV 0 1 4; AV 0 2 5;
         AT 0 0 2; AT 0 1 1;
         AT 0 3 0; AE0 0 0;
         AE0 0 1; AE0 0 3;
         AR0 0 3; AF0 0 3; AO 0 3]
    +++ (if (imin =? t1)%nat then
       (Ret [AV 1 2 5; AV 1 3 4;
             AV 2 3 5;
             AT 1 1 1; AT 1 2 2;
             AT 1 3 0; AT 1 5 0;
             AE0 1 1; AE0 1 2;
             AE0 1 3; AE0 1 5;
             AR0 1 1; AR0 1 3;
             AF0 1 1; AF0 1 3;
             AO 1 1; AO 1 3;
             AT 2 2 1; AT 2 4 0;
             AE0 2 2; AE0 2 4;
             AR0 2 2; AF0 2 2; AO 2 2])
     else
       (Ret [AV 1 3 4;
             AV 2 1 4; AV 2 3 5;
             AT 1 2 2; AT 1 5 0;
             AE0 1 2; AE0 1 5;
             AR0 1 1; AF0 1 1; AO 1 1;
             AT 2 0 2; AT 2 2 1;
             AT 2 3 0; AT 2 4 0;
             AE0 2 0; AE0 2 2;
             AE0 2 3; AE0 2 4;
             AR0 2 2; AR0 2 3;
             AF0 2 2; AF0 2 3;
             AO 2 2; AO 2 3])).

(** [MMG5_split2] (split_3d.c:1530-1563). *)
Definition split2_prog : outcome (list asg) :=
  Ret [AV 0 1 0; AV 0 2 5;
         AV 1 1 0; AV 1 3 5;
         AV 2 0 0; AV 2 2 5;
         AV 3 0 0; AV 3 3 5;
         AT 0 1 1; AT0 0 3;
         AT 0 4 2; AE0 0 1;
         AE0 0 3; AE0 0 4;
         AR0 0 0; AR0 0 3;
         AF0 0 0; AF0 0 3;
         AO 0 0; AO 0 3;
         AT 1 2 1; AT 1 3 3;
         AT0 1 4; AE0 1 2;
         AE0 1 3; AE0 1 4;
         AR0 1 0; AR0 1 2;
         AF0 1 0; AF0 1 2;
         AO 1 0; AO 1 2;
         AT0 2 1; AT 2 2 2;
         AT 2 3 0; AE0 2 1;
         AE0 2 2; AE0 2 3;
         AR0 2 1; AR0 2 3;
         AF0 2 1; AF0 2 3;
         AO 2 1; AO 2 3;
         AT 3 1 3; AT0 3 2;
         AT 3 4 0; AE0 3 1;
         AE0 3 2; AE0 3 4;
         AR0 3 1; AR0 3 2;
         AF0 3 1; AF0 3 2;
         AO 3 1; AO 3 2].

(** [MMG5_split3] (split_3d.c:1753-1782). *)
Definition split3_prog : outcome (list asg) :=
  Ret [AV 0 1 0; AV 0 2 1;
         AV 1 0 0; AV 1 2 3;
         AV 2 0 1; AV 2 1 3;
         AV 3 0 0; AV 3 1 3; AV 3 2 1;
         AT 0 3 3; AT 0 4 2;
         AT 0 5 1; AE0 0 3;
         AE0 0 4; AE0 0 5;
         AR0 0 0; AF0 0 0; AO 0 0;
         AT 1 1 3; AT 1 2 2;
         AT 1 5 0; AE0 1 1;
         AE0 1 2; AE0 1 5;
         AR0 1 1; AF0 1 1; AO 1 1;
         AT 2 0 3; AT 2 2 1;
         AT 2 4 0; AE0 2 0;
         AE0 2 2; AE0 2 4;
         AR0 2 2; AF0 2 2; AO 2 2;
         AT 3 0 3; AT 3 1 3;
         AT 3 2 2; AT 3 3 3;
         AT 3 4 0; AT 3 5 1;
         AE0 3 0; AE0 3 1;
         AE0 3 2; AE0 3 3;
         AE0 3 4; AE0 3 5;
         AR0 3 0; AR0 3 1; AR0 3 2;
         AF0 3 0; AF0 3 1; AF0 3 2;
         AO 3 0; AO 3 1; AO 3 2].

(** [MMG5_split3cone_globNum] (split_3d.c:2115-2271) with the choice of diagonals (split_3d.c:1889-1907). *)
Definition split3cone_prog (lt : nat -> nat -> bool) (t0 t1 t2 t3 : nat) : outcome (list asg) :=
  let '(ia, ib) := if lt t1 t2 then (t1, t2) else (t2, t1) in
  let '(ia, ib) := if lt t3 ia then (t3, ia) else if lt t3 ib then (ia, t3) else (ia, ib) in
  Ret [AV 0 1 0; AV 0 2 1; AV 0 3 2;
         AT 0 3 3; AT 0 4 2;
         AT 0 5 1; AE0 0 3;
         AE0 0 4; AE0 0 5;
         AR0 0 0;
         AF0 0 0;
         AO 0 0]
    +++ (if (ia =? t3)%nat then
       (Ret [AV 1 0 2; AV 1 1 0; AV 1 2 1;
             AT 1 0 2; AT 1 1 1;
             AT 1 3 3; AT 1 4 2;
             AT 1 5 1; AE0 1 0;
             AE0 1 1; AE0 1 3;
             AE0 1 4; AE0 1 5;
             AR0 1 0; AR0 1 3;
             AF0 1 0; AF0 1 3;
             AO 1 0; AO 1 3]
        +++ (if (ib =? t1)%nat then
           (Ret [AV 2 0 0; AV 2 2 1;
                 AT 2 1 3; AT 2 2 2;
                 AT 2 3 3; AT 2 5 1;
                 AE0 2 1; AE0 2 2;
                 AE0 2 3; AE0 2 5;
                 AR0 2 0; AR0 2 1;
                 AF0 2 0; AF0 2 1;
                 AO 2 0; AO 2 1;
                 AV 3 0 1;
                 AT 3 0 3; AT 3 2 1;
                 AE0 3 0; AE0 3 2;
                 AR0 3 2;
                 AF0 3 2;
                 AO 3 2])
         else
           ((c_assert ((ib =? t2)%nat) ;;; Ret [])
            +++ Ret [AV 2 0 1; AV 2 1 0;
                 AT 2 0 3; AT 2 2 1;
                 AT 2 3 3; AT 2 4 2;
                 AE0 2 0; AE0 2 2;
                 AE0 2 3; AE0 2 4;
                 AR0 2 0; AR0 2 2;
                 AF0 2 0; AF0 2 2;
                 AO 2 0; AO 2 2;
                 AV 3 0 0;
                 AT 3 1 3; AT 3 2 2;
                 AE0 3 1; AE0 3 2;
                 AR0 3 1;
                 AF0 3 1;
                 AO 3 1])))
     else if (ia =? t2)%nat then
       (Ret [AV 1 0 1; AV 1 1 0; AV 1 3 2;
             AT 1 0 3; AT 1 2 1;
             AT 1 3 3; AT 1 4 2;
             AT 1 5 1; AE0 1 0;
             AE0 1 2; AE0 1 3;
             AE0 1 4; AE0 1 5;
             AR0 1 0; AR0 1 2;
             AF0 1 0; AF0 1 2;
             AO 1 0; AO 1 2]
        +++ (if (ib =? t3)%nat then
           (Ret [AV 2 0 2; AV 2 1 0;
                 AT 2 0 2; AT 2 1 1;
                 AT 2 3 3; AT 2 4 2;
                 AE0 2 0; AE0 2 1;
                 AE0 2 3; AE0 2 4;
                 AR0 2 0; AR0 2 3;
                 AF0 2 0; AF0 2 3;
                 AO 2 0; AO 2 3;
                 AV 3 0 0;
                 AT 3 1 3; AT 3 2 2;
                 AE0 3 1; AE0 3 2;
                 AR0 3 1;
                 AF0 3 1;
                 AO 3 1])
         else
           ((c_assert ((ib =? t1)%nat) ;;; Ret [])
            +++ Ret [AV 2 0 0; AV 2 3 2;
                 AT 2 1 3; AT 2 2 2;
                 AT 2 4 2; AT 2 5 1;
                 AE0 2 1; AE0 2 2;
                 AE0 2 4; AE0 2 5;
                 AR0 2 0; AR0 2 1;
                 AF0 2 0; AF0 2 1;
                 AO 2 0; AO 2 1;
                 AV 3 0 2;
                 AT 3 0 2; AT 3 1 1;
                 AE0 3 0; AE0 3 1;
                 AR0 3 3;
                 AF0 3 3;
                 AO 3 3])))
     else
       ((c_assert ((ia =? t1)%nat) ;;; Ret [])
        +++ Ret [AV 1 0 0; AV 1 2 1; AV 1 3 2;
             AT 1 1 3; AT 1 2 2;
             AT 1 3 3; AT 1 4 2;
             AT 1 5 1; AE0 1 1;
             AE0 1 2; AE0 1 3;
             AE0 1 4; AE0 1 5;
             AR0 1 0; AR0 1 1;
             AF0 1 0; AF0 1 1;
             AO 1 0; AO 1 1]
        +++ (if (ib =? t2)%nat then
           (Ret [AV 2 0 1; AV 2 3 2;
                 AT 2 0 3; AT 2 2 1;
                 AT 2 4 2; AT 2 5 1;
                 AE0 2 0; AE0 2 2;
                 AE0 2 4; AE0 2 5;
                 AR0 2 0; AR0 2 2;
                 AF0 2 0; AF0 2 2;
                 AO 2 0; AO 2 2;
                 AV 3 0 2;
                 AT 3 0 2; AT 3 1 1;
                 AE0 3 0; AE0 3 1;
                 AR0 3 3;
                 AF0 3 3;
                 AO 3 3])
         else
           ((c_assert ((ib =? t3)%nat) ;;; Ret [])
            +++ Ret [AV 2 0 2; AV 2 2 1;
                 AT 2 0 2; AT 2 1 1;
                 AT 2 3 3; AT 2 5 1;
                 AE0 2 0; AE0 2 1;
                 AE0 2 3; AE0 2 5;
                 AR0 2 0; AR0 2 3;
                 AF0 2 0; AF0 2 3;
                 AO 2 0; AO 2 3;
                 AV 3 0 1;
                 AT 3 0 3; AT 3 2 1;
                 AE0 3 0; AE0 3 2;
                 AR0 3 2;
                 AF0 3 2;
                 AO 3 2])))).

(** [MMG5_split3op] (split_3d.c:2712-2883) with the choice of diagonals (split_3d.c:2504-2506). *)
Definition split3op_prog (lt : nat -> nat -> bool) (ip0 ip1 ip2 ip3 : nat) : outcome (list asg) :=
  let imin03 := if lt ip0 ip3 then ip0 else ip3 in
  let imin12 := if lt ip1 ip2 then ip1 else ip2 in
  (if ((imin12 =? ip2)%nat) && ((imin03 =? ip0)%nat) then
       (Ret [AV 0 0 1; AV 0 1 0; AV 0 3 5;
             AT 0 0 3; AT 0 2 1;
             AT 0 3 3; AT0 0 4;
             AE0 0 0; AE0 0 2;
             AE0 0 3; AE0 0 4;
             AR0 0 0; AR0 0 2;
             AF0 0 0; AF0 0 2;
             AO 0 0; AO 0 2;
             AV 1 0 0; AV 1 3 5;
             AT 1 1 3; AT0 1 2;
             AT 1 4 0; AE0 1 1;
             AE0 1 2; AE0 1 4;
             AR0 1 1; AR0 1 2;
             AF0 1 1; AF0 1 2;
             AO 1 1; AO 1 2;
             AV 2 0 0; AV 2 2 5;
             AT0 2 1; AT 2 2 2;
             AT 2 3 0; AE0 2 1;
             AE0 2 2; AE0 2 3;
             AR0 2 1; AR0 2 3;
             AF0 2 1; AF0 2 3;
             AO 2 1; AO 2 3;
             AV 3 1 0; AV 3 2 1; AV 3 3 5;
             AT 3 2 1; AT 3 3 3;
             AT0 3 4; AT 3 5 1;
             AE0 3 2; AE0 3 3;
             AE0 3 4; AE0 3 5;
             AR0 3 0; AR0 3 2;
             AF0 3 0; AF0 3 2;
             AO 3 0; AO 3 2;
             AV 4 1 0; AV 4 2 5;
             AT 4 1 1; AT0 4 3;
             AT 4 4 2; AE0 4 1;
             AE0 4 3; AE0 4 4;
             AR0 4 0; AR0 4 3;
             AF0 4 0; AF0 4 3;
             AO 4 0; AO 4 3])
     else if ((imin12 =? ip1)%nat) && ((imin03 =? ip0)%nat) then
       (Ret [AV 0 0 1; AV 0 3 5;
             AT 0 0 3; AT 0 2 1;
             AT 0 4 0; AE0 0 0;
             AE0 0 2; AE0 0 4;
             AR0 0 2;
             AF0 0 2;
             AO 0 2;
             AV 1 0 0; AV 1 2 1; AV 1 3 5;
             AT 1 1 3; AT0 1 2;
             AT 1 3 3; AT 1 4 0;
             AT 1 5 1; AE0 1 1;
             AE0 1 2; AE0 1 3;
             AE0 1 4; AE0 1 5;
             AR0 1 0; AR0 1 1; AR0 1 2;
             AF0 1 0; AF0 1 1; AF0 1 2;
             AO 1 0; AO 1 1; AO 1 2;
             AV 2 0 0; AV 2 2 5;
             AT0 2 1; AT 2 2 2;
             AT 2 3 0; AE0 2 1;
             AE0 2 2; AE0 2 3;
             AR0 2 1; AR0 2 3;
             AF0 2 1; AF0 2 3;
             AO 2 1; AO 2 3;
             AV 3 1 0; AV 3 2 5;
             AT 3 1 1; AT0 3 3;
             AT 3 4 2; AE0 3 1;
             AE0 3 3; AE0 3 4;
             AR0 3 0; AR0 3 3;
             AF0 3 0; AF0 3 3;
             AO 3 0; AO 3 3;
             AV 4 1 0; AV 4 2 1; AV 4 3 5;
             AT 4 2 1; AT 4 3 3;
             AT0 4 4; AT 4 5 1;
             AE0 4 2; AE0 4 3;
             AE0 4 4; AE0 4 5;
             AR0 4 0; AR0 4 2;
             AF0 4 0; AF0 4 2;
             AO 4 0; AO 4 2])
     else if ((imin12 =? ip2)%nat) && ((imin03 =? ip3)%nat) then
       (Ret [AV 0 1 0; AV 0 2 1;
             AT 0 3 3; AT 0 4 2;
             AT 0 5 1; AE0 0 3;
             AE0 0 4; AE0 0 5;
             AR0 0 0;
             AF0 0 0;
             AO 0 0;
             AV 1 0 1; AV 1 1 0; AV 1 2 5;
             AT 1 0 3; AT 1 1 1;
             AT 1 2 1; AT0 1 3;
             AT 1 4 2; AE0 1 0;
             AE0 1 1; AE0 1 2;
             AE0 1 3; AE0 1 4;
             AR0 1 0; AR0 1 2; AR0 1 3;
             AF0 1 0; AF0 1 2; AF0 1 3;
             AO 1 1; AO 1 2; AO 1 3;
             AV 2 0 0; AV 2 2 5;
             AT0 2 1; AT 2 2 2;
             AT 2 3 0; AE0 2 1;
             AE0 2 2; AE0 2 3;
             AR0 2 1; AR0 2 3;
             AF0 2 1; AF0 2 3;
             AO 2 1; AO 2 3;
             AV 3 0 1; AV 3 1 0; AV 3 3 5;
             AT 3 0 3; AT 3 2 1;
             AT 3 3 3; AT0 3 4;
             AE0 3 0; AE0 3 2;
             AE0 3 3; AE0 3 4;
             AR0 3 0; AR0 3 2;
             AF0 3 0; AF0 3 2;
             AO 3 0; AO 3 2;
             AV 4 0 0; AV 4 3 5;
             AT 4 1 3; AT0 4 2;
             AT 4 4 0; AE0 4 1;
             AE0 4 2; AE0 4 4;
             AR0 4 1; AR0 4 2;
             AF0 4 1; AF0 4 2;
             AO 4 1; AO 4 2])
     else
       ((c_assert (((imin12 =? ip1)%nat) && ((imin03 =? ip3)%nat)) ;;; Ret [])
        +++ Ret [AV 0 1 0; AV 0 2 1;
             AT 0 3 3; AT 0 4 2;
             AT 0 5 1; AE0 0 3;
             AE0 0 4; AE0 0 5;
             AR0 0 0;
             AF0 0 0;
             AO 0 0;
             AV 1 0 1; AV 1 3 5;
             AT 1 0 3; AT 1 2 1;
             AT 1 4 0; AE0 1 0;
             AE0 1 2; AE0 1 4;
             AR0 1 2;
             AF0 1 2;
             AO 1 2;
             AV 2 0 0; AV 2 2 1;
             AT 2 1 3; AT 2 2 2;
             AT 2 3 3; AT 2 5 1;
             AE0 2 1; AE0 2 2;
             AE0 2 3; AE0 2 5;
             AR0 2 0; AR0 2 1;
             AF0 2 0; AF0 2 1;
             AO 2 0; AO 2 1;
             AV 3 0 1; AV 3 2 5;
             AT 3 0 3; AT 3 1 1;
             AT 3 2 1; AT 3 3 0;
             AE0 3 0; AE0 3 1;
             AE0 3 2; AE0 3 3;
             AR0 3 2; AR0 3 3;
             AF0 3 2; AF0 3 3;
             AO 3 2; AO 3 3])).

(** [MMG5_split4sf] (split_3d.c:3468-3567) with the choice of diagonals (split_3d.c:3322-3323). *)
Definition split4sf_prog (lt : nat -> nat -> bool) (t0 t1 t2 t3 : nat) : outcome (list asg) :=
  let imin23 := if lt t2 t3 then t2 else t3 in
  let imin12 := if lt t1 t2 then t1 else t2 in
  Ret [AV 0 1 0; AV 0 2 1; AV 0 3 2;
         AT 0 3 3; AT 0 4 2;
         AT 0 5 1; AE0 0 3;
         AE0 0 4; AE0 0 5;
         AR0 0 0;
         AF0 0 0;
         AO 0 0;
         AV 1 0 2; AV 1 1 0;
         AV 1 2 1; AV 1 3 4;
         AT 1 0 2; AT 1 1 1;
         AT 1 2 2; AT 1 3 3;
         AT 1 4 2; AT0 1 5;
         AE0 1 0; AE0 1 1;
         AE0 1 2; AE0 1 3;
         AE0 1 4; AE0 1 5;
         AR0 1 0; AR0 1 1; AR0 1 3;
         AF0 1 0; AF0 1 1; AF0 1 3;
         AO 1 0; AO 1 1; AO 1 3]
    +++ (if (imin12 =? t1)%nat then
       (Ret [AV 2 0 0; AV 2 2 1; AV 2 3 4;
             AT 2 1 3; AT 2 2 2;
             AT 2 3 3; AT0 2 5;
             AE0 2 1; AE0 2 2;
             AE0 2 3; AE0 2 5;
             AR0 2 0; AR0 2 1;
             AF0 2 0; AF0 2 1;
             AO 2 0; AO 2 1;
             AV 3 0 1; AV 3 3 4;
             AT 3 0 3; AT0 3 2;
             AT 3 5 0; AE0 3 0;
             AE0 3 2; AE0 3 5;
             AR0 3 1; AR0 3 2;
             AF0 3 1; AF0 3 2;
             AO 3 1; AO 3 2])
     else
       (Ret [AV 2 0 1; AV 2 1 0; AV 2 3 4;
             AT 2 0 3; AT0 2 2;
             AT 2 3 3; AT 2 4 2;
             AT 2 5 0; AE0 2 0;
             AE0 2 2; AE0 2 3;
             AE0 2 4; AE0 2 5;
             AR0 2 0; AR0 2 1; AR0 2 2;
             AF0 2 0; AF0 2 1; AF0 2 2;
             AO 2 0; AO 2 1; AO 2 2;
             AV 3 0 0; AV 3 3 4;
             AT 3 1 3; AT 3 2 2;
             AT 3 5 0; AE0 3 1;
             AE0 3 2; AE0 3 5;
             AR0 3 1;
             AF0 3 1;
             AO 3 1]))
    +++ (if (imin23 =? t2)%nat then
       (Ret [AV 4 0 1; AV 4 1 4; AV 4 3 2;
             AT0 4 0; AT 4 2 1;
             AT 4 3 0; AT 4 4 2;
             AT 4 5 1;
             AE0 4 0; AE0 4 2;
             AE0 4 3; AE0 4 4;
             AE0 4 5;
             AR0 4 0; AR0 4 2;
             AR0 4 3;
             AF0 4 0; AF0 4 2;
             AF0 4 3;
             AO 4 0; AO 4 2; AO 4 3;
             AV 5 0 2; AV 5 1 4;
             AT 5 0 2; AT 5 1 1;
             AT 5 3 0; AE0 5 0;
             AE0 5 1; AE0 5 3;
             AR0 5 3;
             AF0 5 3;
             AO 5 3])
     else
       (Ret [AV 4 0 2; AV 4 1 4; AV 4 2 1;
             AT 4 0 2; AT 4 1 1;
             AT0 4 3; AT 4 5 1;
             AE0 4 0; AE0 4 1;
             AE0 4 3; AE0 4 5;
             AR0 4 0; AR0 4 3;
             AF0 4 0; AF0 4 3;
             AO 4 0; AO 4 3;
             AV 5 0 1; AV 5 1 4;
             AT0 5 0; AT 5 2 1;
             AT 5 3 0; AE0 5 0;
             AE0 5 2; AE0 5 3;
             AR0 5 2; AR0 5 3;
             AF0 5 2; AF0 5 3;
             AO 5 2; AO 5 3])).

(** [MMG5_split4op_globNum] (split_3d.c:3864-3978) with the choice of diagonals (split_3d.c:3669-3671). *)
Definition split4op_prog (lt : nat -> nat -> bool) (t0 t1 t2 t3 : nat) : outcome (list asg) :=
  let imin01 := if lt t0 t1 then t0 else t1 in
  let imin23 := if lt t2 t3 then t2 else t3 in
  (if (imin01 =? t0)%nat then
       (Ret [AV 0 2 3; AV 0 3 4;
             AT 0 1 3; AT 0 5 0;
             AT 0 2 2; AE0 0 1;
             AE0 0 5; AE0 0 2;
             AR0 0 1;
             AF0 0 1;
             AO 0 1;
             AV 1 1 4; AV 1 2 3; AV 1 3 2;
             AT 1 0 2; AT 1 1 3;
             AT 1 3 0; AT 1 4 2;
             AT0 1 5; AE0 1 0;
             AE0 1 1; AE0 1 3;
             AE0 1 4; AE0 1 5;
             AR0 1 0; AR0 1 1; AR0 1 3;
             AF0 1 0; AF0 1 1; AF0 1 3;
             AO 1 0; AO 1 1; AO 1 3;
             AV 2 1 3; AV 2 2 1; AV 2 3 2;
             AT 2 0 3; AT 2 3 3;
             AT0 2 4; AT 2 5 1;
             AE0 2 0; AE0 2 3;
             AE0 2 4; AE0 2 5;
             AR0 2 0; AR0 2 2;
             AF0 2 0; AF0 2 2;
             AO 2 0; AO 2 2])
     else
       (Ret [AV 0 2 1; AV 0 3 2;
             AT 0 3 3; AT 0 4 2;
             AT 0 5 1; AE0 0 3;
             AE0 0 4; AE0 0 5;
             AR0 0 0;
             AF0 0 0;
             AO 0 0;
             AV 1 0 1; AV 1 2 3; AV 1 3 2;
             AT 1 0 3; AT 1 1 3;
             AT 1 2 1; AT 1 4 2;
             AT0 1 5; AE0 1 0;
             AE0 1 1; AE0 1 2;
             AE0 1 4; AE0 1 5;
             AR0 1 0; AR0 1 1; AR0 1 2;
             AF0 1 0; AF0 1 1; AF0 1 2;
             AO 1 0; AO 1 1; AO 1 2;
             AV 2 0 2; AV 2 2 3; AV 2 3 4;
             AT 2 0 2; AT0 2 1;
             AT 2 2 2; AT 2 5 0;
             AE0 2 0; AE0 2 1;
             AE0 2 2; AE0 2 5;
             AR0 2 1; AR0 2 3;
             AF0 2 1; AF0 2 3;
             AO 2 1; AO 2 3]))
    +++ (if (imin23 =? t2)%nat then
       (Ret [AV 3 0 2; AV 3 1 4;
             AT 3 0 2; AT 3 1 1;
             AT 3 3 0; AE0 3 0;
             AE0 3 1; AE0 3 3;
             AR0 3 3;
             AF0 3 3;
             AO 3 3;
             AV 4 0 2; AV 4 1 3; AV 4 3 4;
             AT0 4 0; AT 4 1 1;
             AT 4 2 2; AT 4 4 0;
             AT 4 5 0; AE0 4 0;
             AE0 4 1; AE0 4 2;
             AE0 4 4; AE0 4 5;
             AR0 4 1; AR0 4 2; AR0 4 3;
             AF0 4 1; AF0 4 2; AF0 4 3;
             AO 4 1; AO 4 2; AO 4 3;
             AV 5 0 1; AV 5 1 3; AV 5 3 2;
             AT 5 0 3; AT 5 2 1;
             AT0 5 4; AT 5 5 1;
             AE0 5 0; AE0 5 2;
             AE0 5 4; AE0 5 5;
             AR0 5 0; AR0 5 2;
             AF0 5 0; AF0 5 2;
             AO 5 0; AO 5 2])
     else
       (Ret [AV 3 0 1; AV 3 1 3;
             AT 3 0 3; AT 3 2 1;
             AT 3 4 0; AE0 3 0;
             AE0 3 2; AE0 3 4;
             AR0 3 2;
             AF0 3 2;
             AO 3 2;
             AV 4 0 2; AV 4 1 3; AV 4 2 1;
             AT0 4 0; AT 4 1 1;
             AT 4 3 3; AT 4 4 0;
             AT 4 5 1; AE0 4 0;
             AE0 4 1; AE0 4 3;
             AE0 4 4; AE0 4 5;
             AR0 4 0; AR0 4 2; AR0 4 3;
             AF0 4 0; AF0 4 2; AF0 4 3;
             AO 4 0; AO 4 2; AO 4 3;
             AV 5 0 2; AV 5 1 4; AV 5 2 3;
             AT 5 0 2; AT0 5 1;
             AT 5 3 0; AT 5 5 0;
             AE0 5 0; AE0 5 1;
             AE0 5 3; AE0 5 5;
             AR0 5 1; AR0 5 3;
             AF0 5 1; AF0 5 3;
             AO 5 1; AO 5 3])).

(** [MMG5_split5] (split_3d.c:4232-4332) with the choice of diagonals (split_3d.c:4097). *)
Definition split5_prog (lt : nat -> nat -> bool) (t0 t1 t2 t3 : nat) : outcome (list asg) :=
  let imin := if lt t0 t1 then t0 else t1 in
  Ret [AV 0 0 2; AV 0 1 4; AV 0 2 5;
         AT 0 0 2; AT 0 1 1;
         AT 0 3 0; AE0 0 0;
         AE0 0 1; AE0 0 3;
         AR0 0 3;
         AF0 0 3;
         AO 0 3;
         AV 1 0 1; AV 1 1 3; AV 1 3 5;
         AT 1 0 3; AT 1 2 1;
         AT 1 4 0; AE0 1 0;
         AE0 1 2; AE0 1 4;
         AR0 1 2;
         AF0 1 2;
         AO 1 2;
         AV 2 0 2; AV 2 1 4;
         AV 2 2 3; AV 2 3 5;
         AT 2 0 2; AT0 2 1;
         AT 2 2 1; AT 2 3 0;
         AT 2 4 0; AT 2 5 0;
         AE0 2 0; AE0 2 1;
         AE0 2 2; AE0 2 3;
         AE0 2 4; AE0 2 5;
         AR0 2 1; AR0 2 2; AR0 2 3;
         AF0 2 1; AF0 2 2; AF0 2 3;
         AO 2 1; AO 2 2; AO 2 3;
         AV 3 0 2; AV 3 1 3;
         AV 3 2 1; AV 3 3 5;
         AT0 3 0; AT 3 1 1;
         AT 3 2 1; AT 3 3 3;
         AT 3 4 0; AT 3 5 1;
         AE0 3 0; AE0 3 1;
         AE0 3 2; AE0 3 3;
         AE0 3 4; AE0 3 5;
         AR0 3 0; AR0 3 2; AR0 3 3;
         AF0 3 0; AF0 3 2; AF0 3 3;
         AO 3 0; AO 3 2; AO 3 3]
    +++ (if (imin =? t0)%nat then
       (Ret [AV 4 2 3; AV 4 3 4;
             AT 4 1 3; AT 4 2 2;
             AT 4 5 0; AE0 4 1;
             AE0 4 2; AE0 4 5;
             AR0 4 1;
             AF0 4 1;
             AO 4 1;
             AV 5 1 4; AV 5 2 3; AV 5 3 2;
             AT 5 0 2;
             AT 5 1 3; AT 5 3 0;
             AT 5 4 2; AT0 5 5;
             AE0 5 0;
             AE0 5 1; AE0 5 3;
             AE0 5 4; AE0 5 5;
             AR0 5 0; AR0 5 1; AR0 5 3;
             AF0 5 0; AF0 5 1; AF0 5 3;
             AO 5 0; AO 5 1; AO 5 3;
             AV 6 1 3; AV 6 2 1; AV 6 3 2;
             AT 6 0 3;
             AT 6 3 3; AT0 6 4;
             AT 6 5 1; AE0 6 0;
             AE0 6 3;
             AE0 6 4; AE0 6 5;
             AR0 6 0; AR0 6 2;
             AF0 6 0; AF0 6 2;
             AO 6 0; AO 6 2])
     else
       (Ret [AV 4 2 1; AV 4 3 2;
             AT 4 3 3; AT 4 4 2;
             AT 4 5 1; AE0 4 3;
             AE0 4 4; AE0 4 5;
             AR0 4 0;
             AF0 4 0;
             AO 4 0;
             AV 5 0 2; AV 5 2 3; AV 5 3 4;
             AT 5 0 2; AT0 5 1;
             AT 5 2 2; AT 5 5 0;
             AE0 5 0; AE0 5 1;
             AE0 5 2; AE0 5 5;
             AR0 5 1; AR0 5 3;
             AF0 5 1; AF0 5 3;
             AO 5 1; AO 5 3;
             AV 6 0 1; AV 6 2 3; AV 6 3 2;
             AT 6 0 3; AT 6 1 3;
             AT 6 2 1; AT 6 4 2;
             AT0 6 5; AE0 6 0;
             AE0 6 1; AE0 6 2;
             AE0 6 4; AE0 6 5;
             AR0 6 0; AR0 6 1; AR0 6 2;
             AF0 6 0; AF0 6 1; AF0 6 2;
             AO 6 0; AO 6 1; AO 6 2])).

(** [MMG5_split6] (split_3d.c:4523-4836). *)
Definition split6_prog : outcome (list asg) :=
  Ret [AV 0 1 0; AV 0 2 1; AV 0 3 2;
         AT 0 3 3; AT 0 4 2;
         AT 0 5 1; AE0 0 3;
         AE0 0 4; AE0 0 5;
         AR0 0 0; AF0 0 0; AO 0 0;
         AV 1 0 0; AV 1 2 3; AV 1 3 4;
         AT 1 1 3; AT 1 2 2;
         AT 1 5 0; AE0 1 1;
         AE0 1 2; AE0 1 5;
         AR0 1 1; AF0 1 1; AO 1 1;
         AV 2 0 1; AV 2 1 3; AV 2 3 5;
         AT 2 0 3; AT 2 2 1;
         AT 2 4 0; AE0 2 0;
         AE0 2 2; AE0 2 4;
         AR0 2 2; AF0 2 2; AO 2 2;
         AV 3 0 2; AV 3 1 4; AV 3 2 5;
         AT 3 0 2; AT 3 1 1;
         AT 3 3 0; AE0 3 0;
         AE0 3 1; AE0 3 3;
         AR0 3 3; AF0 3 3; AO 3 3;
         AV 4 0 0; AV 4 1 3; AV 4 2 1; AV 4 3 2;
         AT 4 0 3; AT 4 1 3;
         AT 4 2 2; AT 4 3 3;
         AE0 4 0; AE0 4 1;
         AE0 4 2; AE0 4 3;
         AT0 4 4; AE0 4 4;
         AT 4 5 1; AE0 4 5;
         AR0 4 0; AR0 4 1; AR0 4 2;
         AF0 4 0; AF0 4 1; AF0 4 2;
         AO 4 0; AO 4 1; AO 4 2;
         AV 5 0 2; AV 5 1 0; AV 5 2 3; AV 5 3 4;
         AT 5 0 2; AT0 5 1;
         AT 5 2 2; AT 5 3 3;
         AT 5 4 2; AT 5 5 0;
         AE0 5 0; AE0 5 1;
         AE0 5 2; AE0 5 3;
         AE0 5 4; AE0 5 5;
         AR0 5 0; AR0 5 1; AR0 5 3;
         AF0 5 0; AF0 5 1; AF0 5 3;
         AO 5 0; AO 5 1; AO 5 3;
         AV 6 0 2; AV 6 1 3; AV 6 2 1; AV 6 3 5;
         AT0 6 0; AE0 6 0;
         AT 6 1 1; AT 6 2 1;
         AT 6 3 3; AT 6 4 0;
         AE0 6 1; AE0 6 2;
         AE0 6 3; AE0 6 4;
         AT 6 5 3; AE0 6 5;
         AR0 6 0; AR0 6 2; AR0 6 3;
         AF0 6 0; AF0 6 2; AF0 6 3;
         AO 6 0; AO 6 2; AO 6 3;
         AV 7 0 2; AV 7 1 3; AV 7 2 5; AV 7 3 4;
         AT0 7 0; AT 7 1 1;
         AT 7 2 2; AT 7 3 0;
         AT 7 4 0; AT 7 5 0;
         AE0 7 0; AE0 7 1;
         AE0 7 2; AE0 7 3;
         AE0 7 4; AE0 7 5;
         AR0 7 1; AR0 7 2; AR0 7 3;
         AF0 7 1; AF0 7 2; AF0 7 3;
         AO 7 1; AO 7 2; AO 7 3].

(** [MMG3D_split1_sim] (split_3d.c:107-121). *)
Definition split1_sim_prog : outcome (list sasg) :=
  Ret [SCopy; SV 1 0; STest;
         SCopy; SV 0 0; STest].

(** [MMG3D_split2sf_sim] (split_3d.c:1117-1148). *)
Definition split2sf_sim_prog (lt : nat -> nat -> bool) (t0 t1 t2 t3 : nat) : outcome (list sasg) :=
  let imin := if lt t1 t2 then t1 else t2 in
  Ret [SCopy; SV 1 4; SV 2 5; STest]
    +++ (if (imin =? t1)%nat then
       (Ret [SCopy; SV 2 5; SV 3 4; STest;
             SCopy; SV 3 5; STest])
     else
       (Ret [SCopy; SV 3 4; STest;
             SCopy; SV 1 4; SV 3 5; STest])).

(** [MMG3D_split2_sim] (split_3d.c:1454-1474). *)
Definition split2_sim_prog : outcome (list sasg) :=
  Ret [SCopy; SV 1 0; SV 2 5; STest;
         SCopy; SV 1 0; SV 3 5; STest;
         SCopy; SV 0 0; SV 2 5; STest;
         SCopy; SV 0 0; SV 3 5; STest].

(** [MMG3D_split3_sim] (split_3d.c:1667-1692). *)
Definition split3_sim_prog : outcome (list sasg) :=
  Ret [SCopy; SV 1 0; SV 2 1; STest;
         SCopy; SV 0 0; SV 2 3; STest;
         SCopy; SV 0 1; SV 1 3; STest;
         SCopy; SV 0 0; SV 1 3; SV 2 1; STest].

(** [MMG3D_split3cone_sim] (split_3d.c:1935-2045). *)
Definition split3cone_sim_prog (lt : nat -> nat -> bool) (t0 t1 t2 t3 : nat) : outcome (list sasg) :=
  let '(ia, ib) := if lt t1 t2 then (t1, t2) else (t2, t1) in
  let '(ia, ib) := if lt t3 ia then (t3, ia) else if lt t3 ib then (ia, t3) else (ia, ib) in
  Ret [SCopy; SV 1 0; SV 2 1; SV 3 2; STest;
         SCopy]
    +++ (if (ia =? t3)%nat then
       (Ret [SV 0 2; SV 1 0; SV 2 1; STest;
             SCopy]
        +++ (if (ib =? t1)%nat then
           (Ret [SV 0 0; SV 2 1; STest;
                 SCopy; SV 0 1; STest])
         else
           ((c_assert ((ib =? t2)%nat) ;;; Ret [])
            +++ Ret [SV 0 1; SV 1 0; STest;
                 SCopy; SV 0 0; STest])))
     else if (ia =? t2)%nat then
       (Ret [SV 0 1; SV 1 0; SV 3 2; STest;
             SCopy]
        +++ (if (ib =? t3)%nat then
           (Ret [SV 0 2; SV 1 0; STest;
                 SCopy; SV 0 0; STest])
         else
           ((c_assert ((ib =? t1)%nat) ;;; Ret [])
            +++ Ret [SV 0 0; SV 3 2; STest;
                 SCopy; SV 0 2; STest])))
     else
       ((c_assert ((ia =? t1)%nat) ;;; Ret [])
        +++ Ret [SV 0 0; SV 2 1; SV 3 2; STest;
             SCopy]
        +++ (if (ib =? t2)%nat then
           (Ret [SV 0 1; SV 3 2; STest;
                 SCopy; SV 0 2; STest])
         else
           ((c_assert ((ib =? t3)%nat) ;;; Ret [])
            +++ Ret [SV 0 2; SV 2 1; STest;
                 SCopy; SV 0 1; STest])))).

(** [MMG3D_split3op_sim] (split_3d.c:2539-2638). *)
Definition split3op_sim_prog (lt : nat -> nat -> bool) (ip0 ip1 ip2 ip3 : nat) : outcome (list sasg) :=
  let imin03 := if lt ip0 ip3 then ip0 else ip3 in
  let imin12 := if lt ip1 ip2 then ip1 else ip2 in
  Ret [SCopy]
    +++ (if ((imin12 =? ip2)%nat) && ((imin03 =? ip0)%nat) then
       (Ret [SV 0 1; SV 1 0; SV 3 5; STest;
             SCopy; SV 0 0; SV 3 5; STest;
             SCopy; SV 0 0; SV 2 5; STest;
             SCopy; SV 1 0; SV 2 1; SV 3 5; STest;
             SCopy; SV 1 0; SV 2 5; STest])
     else if ((imin12 =? ip1)%nat) && ((imin03 =? ip0)%nat) then
       (Ret [SV 0 1; SV 3 5; STest;
             SCopy; SV 0 0; SV 2 1; SV 3 5; STest;
             SCopy; SV 0 0; SV 2 5; STest;
             SCopy; SV 1 0; SV 2 5; STest;
             SCopy; SV 1 0; SV 2 1; SV 3 5; STest])
     else if ((imin12 =? ip2)%nat) && ((imin03 =? ip3)%nat) then
       (Ret [SV 1 0; SV 2 1; STest;
             SCopy; SV 0 1; SV 1 0; SV 2 5; STest;
             SCopy; SV 0 0; SV 2 5; STest;
             SCopy; SV 0 1; SV 1 0; SV 3 5; STest;
             SCopy; SV 0 0; SV 3 5; STest])
     else
       ((c_assert (((imin12 =? ip1)%nat) && ((imin03 =? ip3)%nat)) ;;; Ret [])
        +++ Ret [SV 1 0; SV 2 1; STest;
             SCopy; SV 0 1; SV 3 5; STest;
             SCopy; SV 0 0; SV 2 1; STest;
             SCopy; SV 0 1; SV 2 5; STest])).

(** [MMG3D_split4sf_sim] (split_3d.c:3353-3425). *)
Definition split4sf_sim_prog (lt : nat -> nat -> bool) (t0 t1 t2 t3 : nat) : outcome (list sasg) :=
  let imin23 := if lt t2 t3 then t2 else t3 in
  let imin12 := if lt t1 t2 then t1 else t2 in
  Ret [SCopy; SV 1 0; SV 2 1; SV 3 2; STest;
         SCopy; SV 0 2; SV 1 0; SV 2 1; SV 3 4; STest;
         SCopy]
    +++ (if (imin12 =? t1)%nat then
       (Ret [SV 0 0; SV 2 1; SV 3 4; STest;
             SCopy; SV 0 1; SV 3 4; STest])
     else
       (Ret [SV 0 1; SV 1 0; SV 3 4; STest;
             SCopy; SV 0 0; SV 3 4; STest]))
    +++ Ret [SCopy]
    +++ (if (imin23 =? t2)%nat then
       (Ret [SV 0 1; SV 1 4; SV 3 2; STest;
             SCopy; SV 0 2; SV 1 4; STest])
     else
       (Ret [SV 0 2; SV 1 4; SV 2 1; STest;
             SCopy; SV 0 1; SV 1 4; STest])).

(** [MMG3D_split4op_sim] (split_3d.c:3719-3790). *)
Definition split4op_sim_prog (lt : nat -> nat -> bool) (t0 t1 t2 t3 : nat) : outcome (list sasg) :=
  let imin01 := if lt t0 t1 then t0 else t1 in
  let imin23 := if lt t2 t3 then t2 else t3 in
  Ret [SCopy]
    +++ (if (imin01 =? t0)%nat then
       (Ret [SV 2 3; SV 3 4; STest;
             SCopy; SV 1 4; SV 2 3; SV 3 2; STest;
             SCopy; SV 1 3; SV 2 1; SV 3 2; STest])
     else
       (Ret [SV 2 1; SV 3 2; STest;
             SCopy; SV 0 1; SV 2 3; SV 3 2; STest;
             SCopy; SV 0 2; SV 2 3; SV 3 4; STest]))
    +++ Ret [SCopy]
    +++ (if (imin23 =? t2)%nat then
       (Ret [SV 0 2; SV 1 4; STest;
             SCopy; SV 0 2; SV 1 3; SV 3 4; STest;
             SCopy; SV 0 1; SV 1 3; SV 3 2; STest])
     else
       (Ret [SV 0 1; SV 1 3; STest;
             SCopy; SV 0 2; SV 1 3; SV 2 1; STest;
             SCopy; SV 0 2; SV 1 4; SV 2 3; STest])).

(** [MMG3D_split5_sim] (split_3d.c:4127-4187). *)
Definition split5_sim_prog (lt : nat -> nat -> bool) (t0 t1 t2 t3 : nat) : outcome (list sasg) :=
  let imin := if lt t0 t1 then t0 else t1 in
  Ret [SCopy; SV 0 2; SV 1 4; SV 2 5; STest;
         SCopy; SV 0 1; SV 1 3; SV 3 5; STest;
         SCopy; SV 0 2; SV 1 4; SV 2 3; SV 3 5; STest;
         SCopy; SV 0 2; SV 1 3; SV 2 1; SV 3 5; STest;
         SCopy]
    +++ (if (imin =? t0)%nat then
       (Ret [SV 2 3; SV 3 4; STest;
             SCopy; SV 1 4; SV 2 3; SV 3 2; STest;
             SCopy; SV 1 3; SV 2 1; SV 3 2; STest])
     else
       (Ret [SV 2 1; SV 3 2; STest;
             SCopy; SV 0 2; SV 2 3; SV 3 4; STest;
             SCopy; SV 0 1; SV 2 3; SV 3 2; STest])).

(** [MMG3D_split6_sim] (split_3d.c:4425-4466); here the indices are used without permutation. *)
Definition split6_sim_prog : outcome (list sasg) :=
  Ret [SP 0 0; SV 1 0; SV 2 1; SV 3 2; STest;
       SV 0 0; SP 1 1; SV 2 3; SV 3 4; STest;
       SV 0 1; SV 1 3; SP 2 2; SV 3 5; STest;
       SV 0 2; SV 1 4; SV 2 5; SP 3 3; STest;
       SV 0 0; SV 1 3; SV 2 1; SV 3 2; STest;
       SV 0 2; SV 1 0; SV 2 3; SV 3 4; STest;
       SV 0 2; SV 1 3; SV 2 1; SV 3 5; STest;
       SV 0 2; SV 1 3; SV 2 5; SV 3 4; STest].

(** ** Interpreter *)

Definition set_nth {A} (i : nat) (x : A) (l : list A) : list A :=
  firstn i l ++ match skipn i l with [] => [] | _ :: r => x :: r end.

Section Exec.
  Variables (V A O : Type).
  Variables (dV : V) (zero : A) (oset : O).

  (** Vertices and boundary data of one tetrahedron (MMG5_Tetra and MMG5_xTetra,
      libmmgtypes.h): references and tags of the four faces, orientation bits,
      tags and references of the six edges. *)
  Record sub : Type := Sub {
    sv : list V; sref : list A; sftag : list A; sori : list O; stag : list A; sedg : list A }.

  Definition at_nth (j : nat) (f : sub -> sub) (l : list sub) : list sub :=
    firstn j l ++ match skipn j l with [] => [] | s :: r => f s :: r end.

  (** [vx]: new vertices of the six edges; [ft]: the C array [ftag]. *)
  Definition run1 (tau taued : list nat) (vx : list V) (ft : list A) (a : asg) (l : list sub) : list sub :=
    let t i := nth i tau 0 in let te e := nth e taued 0 in
    match a with
    | AV j i e => at_nth j (fun s => Sub (set_nth (t i) (nth (te e) vx dV) (sv s)) (sref s) (sftag s) (sori s) (stag s) (sedg s)) l
    | AT j e f => at_nth j (fun s => Sub (sv s) (sref s) (sftag s) (sori s) (set_nth (te e) (nth (t f) ft zero) (stag s)) (sedg s)) l
    | AT0 j e => at_nth j (fun s => Sub (sv s) (sref s) (sftag s) (sori s) (set_nth (te e) zero (stag s)) (sedg s)) l
    | AE0 j e => at_nth j (fun s => Sub (sv s) (sref s) (sftag s) (sori s) (stag s) (set_nth (te e) zero (sedg s))) l
    | AR0 j f => at_nth j (fun s => Sub (sv s) (set_nth (t f) zero (sref s)) (sftag s) (sori s) (stag s) (sedg s)) l
    | AF0 j f => at_nth j (fun s => Sub (sv s) (sref s) (set_nth (t f) zero (sftag s)) (sori s) (stag s) (sedg s)) l
    | AO j f => at_nth j (fun s => Sub (sv s) (sref s) (sftag s) (set_nth (t f) oset (sori s)) (stag s) (sedg s)) l
    end.

  Definition runs (tau taued : list nat) (vx : list V) (ft : list A) (p : list asg) (l : list sub) : list sub :=
    fold_left (fun l a => run1 tau taued vx ft a l) p l.

  (** Tetrahedra tested by a simulation, in order. *)
  Fixpoint runsim (tau taued : list nat) (v vx : list V) (p : list sasg) (cur : list V) : list (list V) :=
    match p with
    | [] => []
    | SCopy :: p => runsim tau taued v vx p v
    | SV i e :: p => runsim tau taued v vx p (set_nth (nth i tau 0) (nth (nth e taued 0) vx dV) cur)
    | SP i k :: p => runsim tau taued v vx p (set_nth i (nth k v dV) cur)
    | STest :: p => cur :: runsim tau taued v vx p cur
    end.
End Exec.
Arguments Sub {V A O}. Arguments sv {V A O}. Arguments sref {V A O}. Arguments sftag {V A O}.
Arguments run1 {V A O}. Arguments runs {V A O}. Arguments runsim {V}. Arguments at_nth {V A O}.
Arguments sori {V A O}. Arguments stag {V A O}. Arguments sedg {V A O}.

(** ** Choice of the pattern *)

(** Plan: number of tetrahedra, tau, taued, statements.  [pjunk] tells the use of
    the uninitialised local [xt] in [MMG5_split6] (split_3d.c:4519). *)
Record plan : Type := Plan { pne : nat; ptau : list nat; ptaued : list nat; pprog : list asg; pjunk : bool }.

(** Comparison table of the four vertex numbers: entry (a,b) is [v\[a\] < v\[b\]]. *)
Definition ltab (v : list Z) : list (list bool) := map (fun a => map (fun b => (a <? b)%Z) v) v.
Definition ltt (T : list (list bool)) (a b : nat) : bool := nth b (nth a T []) false.

(** Flag built from the marked edges, [if ( vx\[ia\] > 0 ) MG_SET(pt->flag,ia)]
    (mmg3d1.c:1544-1552, 2566-2579; mmg3d2.c:1206-1211). *)
Fixpoint flag_of (w : nat) (pos : list bool) : nat :=
  match pos with [] => 0 | b :: r => (if b then w else 0) + flag_of (2 * w) r end.

Definition inl (k : nat) (l : list nat) : bool := existsb (Nat.eqb k) l.

(** [switch (pt->flag)] (mmg3d1.c:1555-1608 and 2669-2722; the same labels select
    the simulations at mmg3d1.c:185-219, 240-274, 2583-2617). *)
Definition l_split1 : list nat := [1; 2; 4; 8; 16; 32].
Definition l_split2sf : list nat := [48; 24; 40; 6; 34; 36; 20; 5; 17; 9; 3; 10].
Definition l_split2 : list nat := [33; 18; 12].
Definition l_split3 : list nat := [11; 21; 38; 56].
Definition l_split3cone : list nat := [7; 25; 42; 52].
Definition l_split3op : list nat := [35; 19; 13; 37; 22; 28; 26; 14; 49; 50; 44; 41].
Definition l_split4sf : list nat := [23; 29; 53; 60; 57; 58; 27; 15; 43; 39; 54; 46].
Definition l_split4op : list nat := [30; 45; 51].
Definition l_split5 : list nat := [62; 61; 59; 55; 47; 31].
Definition l_split6 : list nat := [63].

Definition mkplan (ne : nat) (c : list nat * list nat) (p : outcome (list asg)) (junk : bool) : outcome plan :=
  l <- p ;; Ret (Plan ne (fst c) (snd c) l junk).

Definition with_t {A} (tau : list nat) (f : nat -> nat -> nat -> nat -> A) : A :=
  f (nth 0 tau 0) (nth 1 tau 0) (nth 2 tau 0) (nth 3 tau 0).

(** [ip\[i\] = tau\[sym\[i\]\]], [ie\[e\] = taued\[symed\[e\]\]] (split_3d.c:2493-2503). *)
Definition op_perm (flag : nat) : list nat * list nat :=
  let '(tau, taued, sym, symed) := split3op_cfg flag in
  (map (fun i => nth i tau 0) sym, map (fun e => nth e taued 0) symed).

(** Asserts on the marks (split_3d.c:2497-2502). *)
Definition op_asserts (pos : list bool) (ie : list nat) : outcome unit :=
  let b e := nth (nth e ie 0) pos false in
  c_assert (b 0 && b 1 && b 5 && negb (b 2) && negb (b 3) && negb (b 4)).

(** The fifth tetrahedron is created unless [imin12==ip1 && imin03==ip3]
    (split_3d.c:2684-2710). *)
Definition op_ne (lt : nat -> nat -> bool) (ip : list nat) : nat :=
  with_t ip (fun ip0 ip1 ip2 ip3 =>
    let imin03 := if lt ip0 ip3 then ip0 else ip3 in
    let imin12 := if lt ip1 ip2 then ip1 else ip2 in
    if (imin12 =? ip1) && (imin03 =? ip3) then 4 else 5).

Definition splan (pos : list bool) (T : list (list bool)) : outcome plan :=
  let flag := flag_of 1 pos in
  let lt := ltt T in
  if inl flag l_split1 then mkplan 2 (split1_cfg flag) split1_prog false
  else if inl flag l_split2sf then let c := split2sf_cfg flag in mkplan 3 c (with_t (fst c) (split2sf_prog lt)) false
  else if inl flag l_split2 then mkplan 4 (split2_cfg flag) split2_prog false
  else if inl flag l_split3 then mkplan 4 (split3_cfg flag) split3_prog false
  else if inl flag l_split3cone then let c := split3cone_cfg flag in mkplan 4 c (with_t (fst c) (split3cone_prog lt)) false
  else if inl flag l_split3op then
    let c := op_perm flag in
    op_asserts pos (snd c) ;;; mkplan (op_ne lt (fst c)) c (with_t (fst c) (split3op_prog lt)) false
  else if inl flag l_split4sf then let c := split4sf_cfg flag in mkplan 6 c (with_t (fst c) (split4sf_prog lt)) false
  else if inl flag l_split4op then let c := split4op_cfg flag in mkplan 6 c (with_t (fst c) (split4op_prog lt)) false
  else if inl flag l_split5 then let c := split5_cfg flag in mkplan 7 c (with_t (fst c) (split5_prog lt)) false
  else if inl flag l_split6 then mkplan 8 ([0; 1; 2; 3], permedge 0) split6_prog true
  else (* flag 0: the element is left alone *) Ret (Plan 1 [0; 1; 2; 3] (permedge 0) [] false).

Definition simplan (pos : list bool) (T : list (list bool)) : outcome (list nat * list nat * list sasg) :=
  let flag := flag_of 1 pos in
  let lt := ltt T in
  let mk (c : list nat * list nat) (p : outcome (list sasg)) := l <- p ;; Ret (c, l) in
  if inl flag l_split1 then mk (split1_cfg flag) split1_sim_prog
  else if inl flag l_split2sf then let c := split2sf_cfg flag in mk c (with_t (fst c) (split2sf_sim_prog lt))
  else if inl flag l_split2 then mk (split2_cfg flag) split2_sim_prog
  else if inl flag l_split3 then mk (split3_cfg flag) split3_sim_prog
  else if inl flag l_split3cone then let c := split3cone_cfg flag in mk c (with_t (fst c) (split3cone_sim_prog lt))
  else if inl flag l_split3op then
    let c := op_perm flag in
    op_asserts pos (snd c) ;;; mk c (with_t (fst c) (split3op_sim_prog lt))
  else if inl flag l_split4sf then let c := split4sf_cfg flag in mk c (with_t (fst c) (split4sf_sim_prog lt))
  else if inl flag l_split4op then let c := split4op_cfg flag in mk c (with_t (fst c) (split4op_sim_prog lt))
  else if inl flag l_split5 then let c := split5_cfg flag in mk c (with_t (fst c) (split5_sim_prog lt))
  else if inl flag l_split6 then mk ([0; 1; 2; 3], permedge 0) split6_sim_prog
  else Ret ([0; 1; 2; 3], permedge 0, []).

(** ** The splitting functions on C values *)

Definition posl (vx : list Z) : list bool := map (fun x => (0 <? x)%Z) vx.

(** [ftag\[i\] = (xt.ftag\[i\] & ~MG_REF)] (split_3d.c:172-175, 1305-1308, ...);
    MG_REF is 1 (libmmgtypes.h). *)
Definition unref (x : Z) : Z := Z.land x (Z.lnot 1).

Definition csub := sub Z Z bool.

(** Result of splitting: the tetrahedra with their local boundary data.
    [junk] is the content of the uninitialised local [xt] read at
    split_3d.c:4519.  The tables of the parent without boundary data are zero. *)
Definition split (junk : list Z) (vx : list Z) (p : csub) : outcome (list csub) :=
  pl <- splan (posl vx) (ltab (sv p)) ;;
  let ft := if pjunk pl then map unref junk else map unref (sftag p) in
  Ret (runs 0%Z 0%Z true (ptau pl) (ptaued pl) vx ft (pprog pl) (repeat p (pne pl))).

(** Tetrahedra whose volume is tested by the simulation. *)
Definition tested (vx v : list Z) : outcome (list (list Z)) :=
  '(tau, taued, p) <- simplan (posl vx) (ltab v) ;;
  Ret (runsim 0%Z tau taued v vx p v).

(** ** Assignment of the xtetra slots

    [isxt\[j\]]: some face of sub-tetrahedron [j] has a reference or a tag
    (split_3d.c:1351-1356 and the same loop in the other functions). *)
Definition isxt (s : csub) : bool :=
  existsb (fun i => negb (nth i (sref s) 0 =? 0)%Z || negb (nth i (sftag s) 0 =? 0)%Z) [0; 1; 2; 3].

(** [if ( pt\[0\]->xt ) ...] (split_3d.c:1358-1405 and the same code in the other
    functions; split_3d.c:200-234 for two tetrahedra; split_3d.c:4525-4836 for
    eight).  [x0]: slot of the parent; [n]: [mesh->xt]; result: slots of the
    sub-tetrahedra and the new [mesh->xt].  The growth of [mesh->xtetra] is
    assumed to succeed.  [first] tells that the slot of the parent is free. *)
Fixpoint give (x0 : Z) (first : bool) (n : Z) (l : list bool) : list Z * Z :=
  match l with
  | [] => ([], n)
  | false :: r => let '(s, n') := give x0 first n r in (0%Z :: s, n')
  | true :: r =>
      if first then let '(s, n') := give x0 false n r in (x0 :: s, n')
      else let '(s, n') := give x0 false (n + 1)%Z r in ((n + 1)%Z :: s, n')
  end.
Definition slots (x0 n : Z) (l : list csub) : list Z * Z :=
  if (x0 =? 0)%Z then (map (fun _ => 0%Z) l, n) else give x0 true n (map isxt l).

(** ** Choice of the pattern in the level-set discretisation *)

Definition marked_edge (s : nat -> Z) (v : list Z) (e : nat) : bool :=
  let a := s (Z.to_nat (nth (fst (iare e)) v 0%Z)) in
  let b := s (Z.to_nat (nth (snd (iare e)) v 0%Z)) in (a * b <? 0)%Z.

(** Edge shared by two tetrahedra. *)
Definition has_edge (v : list Z) (a b : Z) : bool :=
  existsb (fun e => let x := nth (fst (iare e)) v 0%Z in let y := nth (snd (iare e)) v 0%Z in
                    ((x =? a) && (y =? b) || (x =? b) && (y =? a))%Z) [0; 1; 2; 3; 4; 5].

(** Edges cut by [MMG3D_cuttet_ls] (mmg3d2.c:1099-1200): those of the tetrahedra
    whose material is split ([MMG5_isSplit]) with end values of opposite signs.
    [tets]: vertices and "the material is split"; [s]: sign of the level-set
    after snapping.  Required edges, which are cut all the same, are not
    distinguished; the hash table is modelled by its content. *)
Definition cut_ls (tets : list (list Z * bool)) (s : nat -> Z) (v : list Z) (e : nat) : bool :=
  marked_edge s v e &&
  existsb (fun t => snd t && has_edge (fst t) (nth (fst (iare e)) v 0%Z) (nth (snd (iare e)) v 0%Z)) tets.

Definition flag_ls (cut : nat -> bool) : nat := flag_of 1 (map cut [0; 1; 2; 3; 4; 5]).

(** [switch (pt->flag)] of [MMG3D_cuttet_ls] (mmg3d2.c:1212-1240); the result tells
    if the tetrahedron is split, the default case asserts that the flag is 0. *)
Definition switch_ls (flag : nat) : outcome bool :=
  if inl flag (l_split1 ++ l_split2sf ++ l_split3cone ++ l_split4op) then Ret true
  else c_assert (flag =? 0) ;;; Ret false.
(** [switch (pt->flag)] of [MMG3D_cuttet_lssurf] (mmg3d2s.c:362-403). *)
Definition switch_lssurf (flag : nat) : outcome bool :=
  if inl flag (l_split1 ++ l_split2sf ++ l_split2 ++ l_split3cone ++ l_split3op ++ l_split4op) then Ret true
  else c_assert (flag =? 0) ;;; Ret false.
