(** Scaling to the unit box and size bounds (common/scalem.c, common/API_functions.c).

    Doubles are rationals: rounding, overflow and NaN are not modelled.  Decimal
    constants stand for the rational they denote. *)
From Coq Require Import ZArith QArith List Bool.
From Verif Require Import CBase OctModel.
Import ListNotations.
Open Scope Z_scope.

(** [DBL_MAX] and [FLT_MAX]; [MMG5_EPSD], [MMG5_HMINCOE], [MMG5_HMAXCOE],
    mmgcommon_private.h:94,133,134; [MMG5_NONSET_HMIN], [MMG5_NONSET_HMAX], :117,118 *)
Definition DBL_MAX : Q := inject_Z ((2 ^ 53 - 1) * 2 ^ 971).
Definition FLT_MAX : Q := inject_Z ((2 ^ 24 - 1) * 2 ^ 104).
Definition EPSD : Q := 1 # (10 ^ 30).
Definition HMINCOE : Q := 1 # 1000.
Definition HMAXCOE : Q := 2.
Definition NONSET : Q := (-1)%Q.

(** [MG_MIN], [MG_MAX], mmgcommon_private.h *)
Definition mg_min (a b : Q) : Q := if Qltb a b then a else b.
Definition mg_max (a b : Q) : Q := if Qltb b a then a else b.

(** The members of [MMG5_Point] in play: [MG_VOK], coordinates, [flag], [tmp]. *)
Record spt := mkSpt { vok : bool; sc : Z -> Q; sflag : Z; stmp : Z }.

(** Local parameters: sizes only ([ref] and [elt] are not touched here). *)
Record spar := mkSpar { p_hmin : Q; p_hmax : Q; p_hausd : Q }.

(** The members of [MMG5_Info] in play, libmmgtypes.h. *)
Record sinfo := mkInfo {
  s_min : Z -> Q; s_max : Z -> Q; s_delta : Q; s_hmin : Q; s_hmax : Q;
  s_hausd : Q; s_ls : Q; s_hsiz : Q; s_sethmin : bool; s_sethmax : bool; s_optim : bool;
  s_iso : bool; s_isosurf : bool; s_lag : Z; s_par : list spar }.

Record smesh := mkSm { m_dim : Z; m_np : Z; m_base : Z; m_pt : arr spt; m_info : sinfo }.

(** [MMG5_Sol]; [l_m] is [None] for a NULL array.  Types: 1 scalar, 2 vector, 3 tensor. *)
Record ssol := mkSol { l_np : Z; l_size : Z; l_type : Z; l_m : option (arr Q) }.

Definition with_info (m : smesh) (i : sinfo) : smesh := mkSm (m_dim m) (m_np m) (m_base m) (m_pt m) i.
Definition with_pt (m : smesh) (p : arr spt) : smesh := mkSm (m_dim m) (m_np m) (m_base m) p (m_info m).
Definition with_box (i : sinfo) mn mx d : sinfo :=
  mkInfo mn mx d (s_hmin i) (s_hmax i) (s_hausd i) (s_ls i) (s_hsiz i) (s_sethmin i) (s_sethmax i)
         (s_optim i) (s_iso i) (s_isosurf i) (s_lag i) (s_par i).
Definition with_h (i : sinfo) hmin hmax : sinfo :=
  mkInfo (s_min i) (s_max i) (s_delta i) hmin hmax (s_hausd i) (s_ls i) (s_hsiz i) (s_sethmin i) (s_sethmax i)
         (s_optim i) (s_iso i) (s_isosurf i) (s_lag i) (s_par i).

(** The loops over the coordinates [i<mesh->dim] assign independent members; they are
    written pointwise. *)
Definition coords (dim : Z) (g : Z -> Q -> Q) (c : Z -> Q) : Z -> Q :=
  fun i => if (0 <=? i) && (i <? dim) then g i (c i) else c i.

(** [MMG5_boundingBox], scalem.c:46-77 *)
Definition bbox_step (dim k : Z) (s : arr spt * (Z -> Q) * (Z -> Q)) : outcome (arr spt * (Z -> Q) * (Z -> Q)) :=
  let '(pt, mn, mx) := s in
  p <- rd pt k ;;
  if negb (vok p) then Ret s
  else
    let mx := coords dim (fun i x => if Qltb x (sc p i) then sc p i else x) mx in
    let mn := coords dim (fun i x => if Qltb (sc p i) x then sc p i else x) mn in
    pt <- wr pt k (mkSpt (vok p) (sc p) (sflag p) 0) ;;
    Ret (pt, mn, mx).

Definition boundingBox (m : smesh) : outcome (bool * smesh) :=
  let i := m_info m in
  let mn := coords (m_dim m) (fun _ _ => DBL_MAX) (s_min i) in
  let mx := coords (m_dim m) (fun _ _ => (- DBL_MAX)%Q) (s_max i) in
  ' (pt, mn, mx) <- for_range 1 (m_np m) (bbox_step (m_dim m)) (m_pt m, mn, mx) ;;
  delta <- for_range 0 (m_dim m - 1)
             (fun i d => let dd := (mx i - mn i)%Q in Ret (if Qltb d dd then dd else d)) 0%Q ;;
  let m := with_info (with_pt m pt) (with_box i mn mx delta) in
  if Qltb delta EPSD then Ret (false, m) else Ret (true, m).

(** [MMG5_check_hminhmax], scalem.c:89-107 *)
Definition check_hminhmax (i : sinfo) : sinfo :=
  let i := if s_sethmin i then i
           else let h := (s_hmin i * (1 # 10))%Q in
                with_h i (if Qltb (s_hmax i) h then ((1 # 10) * s_hmax i)%Q else h) (s_hmax i) in
  if s_sethmax i then i
  else let h := (s_hmax i * 10)%Q in
       with_h i (s_hmin i) (if Qltb h (s_hmin i) then (10 * s_hmin i)%Q else h).

(** [MMG5_check_setted_hminhmax], scalem.c:116-135 *)
Definition check_setted_hminhmax (i : sinfo) : bool :=
  if Qltb (s_hmin i) 0 && s_sethmin i then false
  else if Qltb (s_hmax i) 0 && s_sethmax i then false
  else true.

(** [MMG5_Set_defaultTruncatureSizes], API_functions.c:586-621 *)
Definition Set_defaultTruncatureSizes (i : sinfo) (sethmin sethmax : bool) : outcome (bool * sinfo) :=
  let i := if negb sethmin then
             with_h i (if sethmax then mg_min HMINCOE (HMINCOE * s_hmax i)%Q else HMINCOE) (s_hmax i)
           else i in
  let i := if negb sethmax then
             with_h i (s_hmin i) (if sethmin then mg_max HMAXCOE ((1 / HMINCOE) * s_hmin i)%Q else HMAXCOE)
           else i in
  if Qltb (s_hmax i) (s_hmin i) then
    _ <- c_assert (sethmin && sethmax) ;; Ret (false, i)
  else Ret (true, i).

(** [MMG5_Compute_constantSize], API_functions.c:623-680: status, size, bounds. *)
Definition Compute_constantSize (i : sinfo) : option (Q * sinfo) :=
  if Qltb (s_hsiz i) (s_hmin i) then None
  else if Qltb 0 (s_hmax i) && Qltb (s_hmax i) (s_hsiz i) then None
  else if negb (check_setted_hminhmax i) then None
  else
    let hsiz := s_hsiz i in
    let hsiz := if s_sethmin i then mg_max (s_hmin i) hsiz else hsiz in
    let hsiz := if s_sethmax i then mg_min (s_hmax i) hsiz else hsiz in
    let i := if negb (s_sethmin i) then
               with_h i (if s_sethmax i then mg_min ((1 # 10) * hsiz)%Q ((1 # 10) * s_hmax i)%Q
                         else ((1 # 10) * hsiz)%Q) (s_hmax i)
             else i in
    let i := if negb (s_sethmax i) then
               with_h i (s_hmin i) (if s_sethmin i then mg_max (10 * hsiz)%Q (10 * s_hmin i)%Q
                                    else (10 * hsiz)%Q)
             else i in
    Some (hsiz, i).

(** [MMG5_solTruncature_iso], scalem.c:299-355 *)
Definition trunc_minmax (m : smesh) (met : arr Q) (k : Z) (s : Q * Q) : outcome (Q * Q) :=
  let '(hmin, hmax) := s in
  p <- rd (m_pt m) k ;;
  if negb (vok p) || (sflag p <? m_base m) then Ret s
  else v <- rd met k ;; Ret (mg_min hmin v, mg_max hmax v).

Definition trunc_step (m : smesh) (k : Z) (met : arr Q) : outcome (arr Q) :=
  p <- rd (m_pt m) k ;;
  if sflag p <? m_base m then wr met k (s_hmax (m_info m))
  else v <- rd met k ;; wr met k (mg_min (s_hmax (m_info m)) (mg_max (s_hmin (m_info m)) v)).

Definition solTruncature_iso (m : smesh) (met : arr Q) : outcome (bool * smesh * arr Q) :=
  let i := m_info m in
  if negb (check_setted_hminhmax i) then Ret (false, m, met)
  else
    ' (hmin, hmax) <- (if negb (s_sethmin i) || negb (s_sethmax i)
                       then for_range 1 (m_np m) (trunc_minmax m met) (FLT_MAX, 0%Q)
                       else Ret (FLT_MAX, 0%Q)) ;;
    let i := with_h i (if s_sethmin i then s_hmin i else hmin) (if s_sethmax i then s_hmax i else hmax) in
    let m := with_info m (check_hminhmax i) in
    met <- for_range 1 (m_np m) (trunc_step m) met ;;
    Ret (true, m, met).

(** [MMG5_scale_scalarMetric], scalem.c:207-245; [warn] is the static [mmgWarn0]. *)
Definition scalar_step (base : Z) (dd : Q) (k : Z) (s : bool * bool * arr spt * arr Q)
  : outcome (bool * bool * arr spt * arr Q) :=
  let '(stop, warn, pt, met) := s in
  if stop then Ret s
  else
    p <- rd pt k ;;
    if negb (vok p) then Ret s
    else
      pt <- wr pt k (mkSpt (vok p) (sc p) base (stmp p)) ;;
      v <- rd met k ;;
      if Qle_bool v 0 && negb warn then Ret (true, true, pt, met)
      else met <- wr met k (v * dd)%Q ;; Ret (false, warn, pt, met).

Definition scale_scalarMetric (warn : bool) (m : smesh) (met : arr Q) (dd : Q)
  : outcome (bool * bool * smesh * arr Q) :=
  let base := m_base m + 1 in
  let m := mkSm (m_dim m) (m_np m) base (m_pt m) (m_info m) in
  _ <- for_range 1 (m_np m) (fun k _ => p <- rd (m_pt m) k ;; c_assert (sflag p <? base)) tt ;;
  ' (stop, warn, pt, met) <- for_range 1 (m_np m) (scalar_step base dd) (false, warn, m_pt m, met) ;;
  let m := with_pt m pt in
  if stop then Ret (false, warn, m, met)
  else ' (ok, m, met) <- solTruncature_iso m met ;; Ret (ok, warn, m, met).

(** [MMG5_scale_tensorMetric], scalem.c:260-287.  The truncation
    ([MMG5_solTruncature_ani], which diagonalises the tensors) is the argument [trunc]. *)
Definition tensor_step (size base : Z) (dd : Q) (k : Z) (s : arr spt * arr Q) : outcome (arr spt * arr Q) :=
  let '(pt, met) := s in
  p <- rd pt k ;;
  if negb (vok p) then Ret s
  else
    pt <- wr pt k (mkSpt (vok p) (sc p) base (stmp p)) ;;
    met <- for_range 0 (size - 1) (fun i met => v <- rd met (k * size + i) ;; wr met (k * size + i) (v * dd)%Q) met ;;
    Ret (pt, met).

Definition scale_tensorMetric (trunc : smesh -> arr Q -> bool * smesh * arr Q)
    (m : smesh) (size : Z) (met : arr Q) (dd : Q) : outcome (bool * smesh * arr Q) :=
  let dd := (1 / (dd * dd))%Q in
  let base := m_base m + 1 in
  let m := mkSm (m_dim m) (m_np m) base (m_pt m) (m_info m) in
  ' (pt, met) <- for_range 1 (m_np m) (tensor_step size base dd) (m_pt m, met) ;;
  Ret (trunc (with_pt m pt) met).

(** [MMG5_scale_meshAndSol], scalem.c:558-638: status, mesh, solution, [dd]. *)
Definition norm_step (dim : Z) (dd : Q) (mn : Z -> Q) (k : Z) (pt : arr spt) : outcome (arr spt) :=
  p <- rd pt k ;;
  if negb (vok p) then Ret pt
  else wr pt k (mkSpt (vok p) (coords dim (fun i x => (dd * (x - mn i))%Q) (sc p)) (sflag p) (stmp p)).

Definition scale_par (dd : Q) (p : spar) : spar :=
  mkSpar (p_hmin p * dd)%Q (p_hmax p * dd)%Q (p_hausd p * dd)%Q.

Definition is_plain (i : sinfo) : bool := negb (s_iso i) && negb (s_isosurf i) && (s_lag i <? 0).

Definition has_np (s : option ssol) : bool := match s with Some s => negb (l_np s =? 0) | None => false end.
Definition has_m (s : option ssol) : bool :=
  match s with Some s => match l_m s with Some _ => true | None => false end | None => false end.

Definition scale_meshAndSol (m : smesh) (met sol : option ssol) : outcome (bool * smesh * option ssol * Q) :=
  _ <- c_assert (match sol with Some s => (l_type s =? 1) || (l_type s =? 2) | None => true end) ;;
  _ <- c_assert (match met with Some s => negb (l_type s =? 2) | None => true end) ;;
  _ <- c_assert (negb (is_plain (m_info m) && has_m sol)) ;;
  ' (ok, m) <- boundingBox m ;;
  if negb ok then Ret (false, m, sol, 0%Q)
  else
    let i := m_info m in
    let dd := (1 / s_delta i)%Q in
    pt <- for_range 1 (m_np m) (norm_step (m_dim m) dd (s_min i)) (m_pt m) ;;
    let i := mkInfo (s_min i) (s_max i) (s_delta i) (s_hmin i) (s_hmax i)
                    (s_hausd i * dd)%Q (s_ls i * dd)%Q (s_hsiz i * dd)%Q (s_sethmin i) (s_sethmax i)
                    (s_optim i) (s_iso i) (s_isosurf i) (s_lag i) (map (scale_par dd) (s_par i)) in
    let m := with_info (with_pt m pt) i in
    if negb (check_setted_hminhmax i) then Ret (false, m, sol, dd)
    else
      let i := with_h i (if s_sethmin i then (s_hmin i * dd)%Q else s_hmin i)
                        (if s_sethmax i then (s_hmax i * dd)%Q else s_hmax i) in
      let hsizOrOptim := Qltb 0 (s_hsiz i) || s_optim i in
      ' (ok, i) <- (if negb hsizOrOptim && negb (has_np met)
                    then Set_defaultTruncatureSizes i (s_sethmin i) (s_sethmax i)
                    else Ret (true, i)) ;;
      let m := with_info m i in
      if negb ok then Ret (false, m, sol, dd)
      else
        match sol with
        | Some s =>
          if l_np s =? 0 then Ret (true, m, sol, dd)
          else match l_m s with
               | None => Stuck
               | Some a =>
                 a <- for_range (l_size s) (l_size s * (m_np m + 1) - 1)
                        (fun k a => v <- rd a k ;; wr a k (v * dd)%Q) a ;;
                 Ret (true, m, Some (mkSol (l_np s) (l_size s) (l_type s) (Some a)), dd)
               end
        | None => Ret (true, m, sol, dd)
        end.

(** [MMG5_scaleMesh], scalem.c:651-681 *)
Record scaled := mkScaled { r_ok : bool; r_warn : bool; r_mesh : smesh; r_met : option ssol; r_sol : option ssol }.

Definition scaleMesh (warn : bool) (trunc : smesh -> arr Q -> bool * smesh * arr Q)
    (m : smesh) (met sol : option ssol) : outcome scaled :=
  ' (ok, m, sol, dd) <- scale_meshAndSol m met sol ;;
  if negb ok then Ret (mkScaled false warn m met sol)
  else
    match met with
    | None => Ret (mkScaled true warn m met sol)
    | Some s =>
      match l_m s with
      | None => Ret (mkScaled true warn m met sol)
      | Some a =>
        if l_np s =? 0 then Ret (mkScaled true warn m met sol)
        else if l_size s =? 1 then
          ' (ok, warn, m, a) <- scale_scalarMetric warn m a dd ;;
          Ret (mkScaled ok warn m (Some (mkSol (l_np s) (l_size s) (l_type s) (Some a))) sol)
        else if l_size s =? (m_dim m - 1) * 3 then
          ' (ok, m, a) <- scale_tensorMetric trunc m (l_size s) a dd ;;
          Ret (mkScaled ok warn m (Some (mkSol (l_np s) (l_size s) (l_type s) (Some a))) sol)
        else Ret (mkScaled true warn m met sol)
      end
    end.

(** [MMG5_unscaleMesh], scalem.c:693-785 *)
Definition denorm_step (dim : Z) (dd : Q) (mn : Z -> Q) (k : Z) (pt : arr spt) : outcome (arr spt) :=
  p <- rd pt k ;;
  if negb (vok p) then Ret pt
  else wr pt k (mkSpt (vok p) (coords dim (fun i x => (x * dd + mn i)%Q) (sc p)) (sflag p) (stmp p)).

(** The loops of :744-750, :765-768 and :771-776: all the values of every valid vertex. *)
Definition unscale_vals (pt : arr spt) (np size : Z) (dd : Q) (a : arr Q) : outcome (arr Q) :=
  for_range 1 np (fun k a =>
    p <- rd pt k ;;
    if negb (vok p) then Ret a
    else for_range 0 (size - 1) (fun i a => v <- rd a (k * size + i) ;; wr a (k * size + i) (v * dd)%Q) a) a.

Definition unscaleMesh (m : smesh) (met sol : option ssol) : outcome (smesh * option ssol * option ssol) :=
  let i := m_info m in
  let dd := s_delta i in
  pt <- for_range 1 (m_np m) (denorm_step (m_dim m) dd (s_min i)) (m_pt m) ;;
  sol <- match sol with
         | Some s =>
           match l_m s with
           | Some a =>
             if l_np s =? 0 then Ret sol
             else
               _ <- c_assert (negb (l_size s =? 3)) ;;
               a <- unscale_vals pt (m_np m) (l_size s) dd a ;;
               Ret (Some (mkSol (l_np s) (l_size s) (l_type s) (Some a)))
           | None => Ret sol
           end
         | None => Ret sol
         end ;;
  let i := mkInfo (fun j => if (0 <=? j) && (j <? 3) then 0%Q else s_min i j) (s_max i) 1%Q
                  (if s_sethmin i then (s_hmin i * dd)%Q else NONSET)
                  (if s_sethmax i then (s_hmax i * dd)%Q else NONSET)
                  (s_hausd i * dd)%Q (s_ls i * dd)%Q (s_hsiz i * dd)%Q (s_sethmin i) (s_sethmax i)
                  (s_optim i) (s_iso i) (s_isosurf i) (s_lag i) (map (scale_par dd) (s_par i)) in
  let m := with_info (with_pt m pt) i in
  met <- match met with
         | Some s =>
           match l_m s with
           | Some a =>
             if l_np s =? 0 then Ret met
             else if l_type s =? 1 then
               a <- unscale_vals pt (m_np m) 1 dd a ;;
               Ret (Some (mkSol (l_np s) (l_size s) (l_type s) (Some a)))
             else if l_type s =? 3 then
               a <- unscale_vals pt (m_np m) (l_size s) (1 / (dd * dd))%Q a ;;
               Ret (Some (mkSol (l_np s) (l_size s) (l_type s) (Some a)))
             else Ret met
           | None => Ret met
           end
         | None => Ret met
         end ;;
  Ret (m, met, sol).
