(** The topological tests made before a collapse, mmg2d/colver_2d.c:42-270. *)
From Coq Require Import ZArith List Lia Bool.
From Verif Require Import CBase Op2Model.
Import ListNotations.
Open Scope Z_scope.

(** common/mmgcommon_private.h:149. *)
Definition MG_BDY := 16.

(** The walk around the second end of the edge until a tagged edge is met,
    mmg2d/colver_2d.c:104-115; gives the other end of the edge where it stops.
    The first triangle of the table (number 0) is scratch memory of the C code.
    Out of fuel stands for a walk that does not end. *)
Fixpoint void_walk (fuel : nat) (m : mesh) (jel j : Z) : outcome Z :=
  match fuel with
  | O => Stuck
  | S f =>
      pt1 <- get_t m jel ;;
      if negb (jel =? 0) && negb (MG_EDG (ttag pt1 j)) then
        a <- get_adj m jel j ;;
        void_walk f m (a / 3) (inxt2 (a mod 3))
      else Ret (tv pt1 (iprv2 j))
  end.

(** The test of the finite element mode, mmg2d/colver_2d.c:122-137: [true] when it refuses. *)
Fixpoint fem_refuses (m : mesh) (l : list Z) : outcome bool :=
  match l with
  | [] | [_] => Ret false
  | e :: l' =>
      pt1 <- get_t m (e / 3) ;;
      t <- rd (m_ptag m) (tv pt1 (iprv2 (e mod 3))) ;;
      if has_tag t MG_BDY && negb (has_tag (ttag pt1 (inxt2 (e mod 3))) MG_BDY) then Ret true
      else fem_refuses m l'
  end.

(** [MMG2D_chkcol] without the tests on the lengths, the qualities and the geometric approximation (lines 64-68, 153-158,
    171-196, 199-204, 218-222, 244-266), and without the references of the triangles (line 249);
    [fem] is [mesh->info.fem].  Gives the ball, or nothing when the collapse is refused. *)
Definition chkcol_topo (fem : bool) (m : mesh) (k i : Z) : outcome (option (list Z)) :=
  pt <- get_t m k ;;
  let i1 := inxt2 i in
  let i2 := iprv2 i in
  let ip1 := tv pt i1 in
  let ip2 := tv pt i2 in
  t1 <- rd (m_ptag m) ip1 ;;
  t2 <- rd (m_ptag m) ip2 ;;
  if MG_EDG t1 && negb (MG_EDG t2) then Ret None
  else if MG_EDG t1 && (negb (ttag pt i1 =? 0) || negb (ttag pt i2 =? 0)) then Ret None
  else if MG_EDG (ttag pt i1) && MG_EDG (ttag pt i2) then Ret None
  else
    a <- get_adj m k i ;;
    let jel := a / 3 in
    let open := jel =? 0 in
    stop <- (if open then Ret false
             else
               pt1 <- get_t m jel ;;
               let j := a mod 3 in
               Ret (MG_EDG (ttag pt1 (inxt2 j)) && MG_EDG (ttag pt1 (iprv2 j)))) ;;
    if stop : bool then Ret None
    else
      res <- boulet m k i1 ;;
      match res with
      | None => Ret None
      | Some list =>
          let n := length list in
          stop <- (if open then
                     e <- lget list (Z.of_nat n - 1) ;;
                     pt1 <- get_t m (e / 3) ;;
                     let ipb := tv pt1 (iprv2 (e mod 3)) in
                     v <- void_walk (S (Z.to_nat (m_nt m))) m k i1 ;;
                     Ret (ipb =? v)
                   else Ret false) ;;
          if stop : bool then Ret None
          else
            stop <- (if fem && has_tag t2 MG_BDY then fem_refuses m list else Ret false) ;;
            if stop : bool then Ret None
            else if (3 <? n)%nat || ((n =? 3)%nat && open) then Ret (Some list)
            else if (n =? 3)%nat then
              if has_tag t1 MG_CRN || has_tag t1 MG_REQ then Ret None
              else if MG_EDG (ttag pt i2) && negb (MG_EDG (ttag pt i)) then Ret None
              else if negb (MG_EDG (ttag pt i2)) && MG_EDG (ttag pt i) then Ret None
              else if MG_EDG (ttag pt i2) && MG_EDG (ttag pt i) && MG_EDG (ttag pt i1) then Ret None
              else Ret (Some list)
            else if negb (n =? 2)%nat || negb open then Ret None
            else
              e <- lget list 1 ;;
              let jel := e / 3 in
              let j := e mod 3 in
              a <- get_adj m jel j ;;
              pt2 <- get_t m (a / 3) ;;
              if tv pt2 (a mod 3) =? ip2 then Ret None
              else
                pt1 <- get_t m jel ;;
                if negb (has_tag (ttag pt1 (inxt2 j)) MG_GEO) then Ret None
                else Ret (Some list)
      end.
