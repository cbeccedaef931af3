(** The quadrilaterals in the text files of Mmg3d: [MMG3D_saveMesh]
    (/repo/src/mmg3d/inout_3d.c:1814-1887, 2048-2052) and [MMG3D_loadMesh]
    (/repo/src/mmg3d/inout_3d.c:192-199, 620-668).

    The loops are those of Mmg2d (SaveQuad2.v): counting
    (inout_3d.c:1819-1833 as [count_saved]), writing (1847-1863 as
    [write_quads], without its counter), required ones (1876-1886 as
    [write_required]), reading as [load_quads].  Not modelled: binary files, the
    other sections, the parallel quadrilaterals (1888-1911, 670-692). *)
From Coq Require Import ZArith List Bool.
From Verif Require Import CBase Quad2 SaveQuad2.
Import ListNotations.
Open Scope Z_scope.

(** inout_3d.c:1814-1887 and the word End. *)
Definition save_quads3 (nq : Z) (a : arr quad) (tg : arr (list Z)) (rf tmp : arr Z) : outcome (list tok) :=
  '(n, r) <- count_saved nq a tg ;;
  if n =? 0 then Ret [Word WEnd]
  else
    '(qs, _) <- write_quads nq a tg rf tmp 0 ;;
    rs <- (if r =? 0 then Ret [] else l <- write_required nq tg ;; Ret (Word WRequired :: Num r :: l)) ;;
    Ret (Word WQuads :: Num n :: qs ++ rs ++ [Word WEnd]).
