(** C21, C31: scaling to the unit box, and bounds on the sizes. *)
From Coq Require Import ZArith QArith Qfield Lqa List Bool Lia.
From Verif Require Import CBase OctModel PropsOct2 ScaleModel ScaleProofs.
Import ListNotations.
Open Scope Z_scope.

(** A mesh as the API leaves it: arrays large enough, 2D or 3D, marks not beyond the
    base; a level-set (scalar) or displacement (vector) and a metric (scalar or tensor)
    of matching sizes, the first one only in the modes that use it. *)
Definition ready (trunc : smesh -> arr Q -> bool * smesh * arr Q) (m : smesh) (met sol : option ssol) : Prop :=
  fits m /\ plain_ok m met sol /\ marks m /\ trunc_frame trunc.

(** ** C21 *)

Theorem scaling_defined warn trunc m met sol :
  ready trunc m met sol ->
  exists r, scaleMesh warn trunc m met sol = Ret r /\
    (r_ok r = false ->
       (forall j k i, valid m j -> valid m k -> 0 <= i < m_dim m ->
          (sc (aget (m_pt m) j) i - sc (aget (m_pt m) k) i < EPSD)%Q) \/
       s_sethmin (m_info m) = true /\ (s_hmin (m_info m) < 0)%Q \/
       s_sethmax (m_info m) = true /\ (s_hmax (m_info m) < 0)%Q \/
       s_sethmin (m_info m) = true /\ s_sethmax (m_info m) = true /\ (s_hmax (m_info m) < s_hmin (m_info m))%Q \/
       (exists s a, met = Some s /\ l_m s = Some a /\ (l_type s = 3 \/ exists k, valid m k /\ (aget a k <= 0)%Q))).
Proof.
  intros (F & P & Mk & Tf). destruct (scale_spec warn trunc m met sol F P Mk Tf) as (r & E & _ & Hf).
  exists r. split; [exact E|]. intros X. destruct (Hf X) as [[R|[R|[R|R]]]|R]; auto 6.
Qed.

Theorem scaling_unit_box warn trunc m met sol r :
  ready trunc m met sol -> scaleMesh warn trunc m met sol = Ret r -> r_ok r = true ->
  (forall k i, valid m k -> 0 <= i < m_dim m -> (0 <= sc (aget (m_pt (r_mesh r)) k) i <= 1)%Q) /\
  ((exists k, valid m k) ->
   (forall k i, valid m k -> 0 <= i < m_dim m -> (- DBL_MAX <= sc (aget (m_pt m) k) i <= DBL_MAX)%Q) ->
   (forall i, 0 <= i < m_dim m -> exists k, valid m k /\ (sc (aget (m_pt (r_mesh r)) k) i == 0)%Q) /\
   (exists i k, 0 <= i < m_dim m /\ valid m k /\ (sc (aget (m_pt (r_mesh r)) k) i == 1)%Q)).
Proof.
  intros (F & P & Mk & Tf) E Hok. destruct (scale_spec warn trunc m met sol F P Mk Tf) as (r' & E' & Hs & _).
  rewrite E' in E. injection E as ->. destruct (Hs Hok) as (dd & Rp & _ & _ & _ & _ & T & _). split.
  - intros k i Hk Hi. apply Rp; assumption.
  - exact T.
Qed.

Lemma sizes_kept trunc warn m m' met met' sol sol' dd dd' :
  plain_ok m met sol -> m_dim m' = m_dim m -> m_np m' = m_np m ->
  sol_rel m sol sol' dd -> met_rel trunc warn m m' met met' dd' -> sizes_ok m' met' sol'.
Proof.
  intros [Ps Pm] D N Rs Rm. split.
  - clear Rm Pm. unfold sol_rel in Rs. destruct sol as [s|], sol' as [s'|]; try contradiction; [|exact I].
    destruct Rs as (A1 & A2 & A3 & A4). destruct Ps as (B1 & _ & B2). rewrite A2, A3, D. split; [exact B1|].
    destruct (l_m s), (l_m s'); try contradiction; [|congruence].
    destruct A4 as (A4 & _). rewrite A4, N. exact B2.
  - clear Rs Ps. unfold met_rel in Rm. destruct met as [s|], met' as [s'|]; try contradiction; [|exact I].
    destruct Rm as (A1 & A2 & A3 & A4). destruct Pm as (B1 & B2). rewrite A2, A3, D. split; [exact B1|].
    destruct (l_m s), (l_m s'); try contradiction; [|congruence].
    destruct A4 as (A4 & _). rewrite A4, N. exact B2.
Qed.

Lemma delta_inv d dd : dd = (1 / d)%Q -> (0 < d)%Q -> (dd * d == 1)%Q.
Proof. intros -> H. field. intros X. rewrite X in H. now apply Qlt_irrefl in H. Qed.

Lemma owned_block pt np size k i :
  1 <= k <= np -> vok (aget pt k) = true -> 0 <= i < size ->
  owned pt np size (k * size + i) = true /\ size <= k * size + i < size * (np + 1).
Proof.
  intros Hk V Hi. split; [|nia]. assert (E : (k * size + i) / size = k) by (apply div_block; lia).
  unfold owned. rewrite E, V. destruct (Z.leb_spec 1 k), (Z.leb_spec k np); cbn [andb]; try reflexivity; lia.
Qed.

Lemma mg_min_comp a b a' b' : (a == a')%Q -> (b == b')%Q -> (mg_min a b == mg_min a' b')%Q.
Proof.
  intros H1 H2. unfold mg_min. destruct (Qltb_spec a b) as [[-> X]|[-> X]], (Qltb_spec a' b') as [[-> Y]|[-> Y]]; lra.
Qed.

Lemma mg_max_comp a b a' b' : (a == a')%Q -> (b == b')%Q -> (mg_max a b == mg_max a' b')%Q.
Proof.
  intros H1 H2. unfold mg_max. destruct (Qltb_spec b a) as [[-> X]|[-> X]], (Qltb_spec b' a') as [[-> Y]|[-> Y]]; lra.
Qed.

Lemma lt_scale a b d : (0 < d)%Q -> (a < b)%Q -> (a * d < b * d)%Q.
Proof. intros. now apply Qmult_lt_compat_r. Qed.

Lemma le_scale a b d : (0 < d)%Q -> (a <= b)%Q -> (a * d <= b * d)%Q.
Proof. intros. apply Qmult_le_compat_r; [assumption|now apply Qlt_le_weak]. Qed.

Lemma mg_min_scale a b d : (0 < d)%Q -> (mg_min (a * d) (b * d) == mg_min a b * d)%Q.
Proof.
  intros Hd. unfold mg_min. destruct (Qltb_spec a b) as [[-> X]|[-> X]].
  - pose proof (lt_scale _ _ _ Hd X). destruct (Qltb_spec (a * d) (b * d)) as [[-> Y]|[-> Y]]; lra.
  - pose proof (le_scale _ _ _ Hd X). destruct (Qltb_spec (a * d) (b * d)) as [[-> Y]|[-> Y]]; lra.
Qed.

Lemma mg_max_scale a b d : (0 < d)%Q -> (mg_max (a * d) (b * d) == mg_max a b * d)%Q.
Proof.
  intros Hd. unfold mg_max. destruct (Qltb_spec b a) as [[-> X]|[-> X]].
  - pose proof (lt_scale _ _ _ Hd X). destruct (Qltb_spec (b * d) (a * d)) as [[-> Y]|[-> Y]]; lra.
  - pose proof (le_scale _ _ _ Hd X). destruct (Qltb_spec (b * d) (a * d)) as [[-> Y]|[-> Y]]; lra.
Qed.

Lemma osize_kept m sol sol' dd : sol_rel m sol sol' dd -> osize sol' = osize sol.
Proof. destruct sol, sol'; try contradiction; [|reflexivity]. intros (_ & H & _). exact H. Qed.

(** The two passes compose, whatever the metric. *)
Lemma compose warn trunc m met sol r :
  ready trunc m met sol -> osize sol <> 3 -> scaleMesh warn trunc m met sol = Ret r -> r_ok r = true ->
  exists m' met' sol' dd, unscaleMesh (r_mesh r) (r_met r) (r_sol r) = Ret (m', met', sol') /\
    m_dim m' = m_dim m /\ m_np m' = m_np m /\ (forall j, vok (aget (m_pt m') j) = vok (aget (m_pt m) j)) /\
    pts_rel m (r_mesh r) dd /\ info_rel (m_info m) (m_info (r_mesh r)) dd /\ sol_rel m sol (r_sol r) dd /\
    met_rel trunc warn m (r_mesh r) met (r_met r) dd /\
    (dd * s_delta (m_info (r_mesh r)) == 1)%Q /\ (0 < dd)%Q /\
    (forall k i, valid m k -> 0 <= i < m_dim m ->
       sc (aget (m_pt m') k) i = (sc (aget (m_pt (r_mesh r)) k) i * s_delta (m_info (r_mesh r)) + s_min (m_info (r_mesh r)) i)%Q) /\
    info_rel (m_info (r_mesh r)) (m_info m') (s_delta (m_info (r_mesh r))) /\
    (s_sethmin (m_info m) = false -> s_hmin (m_info m') = NONSET) /\
    (s_sethmax (m_info m) = false -> s_hmax (m_info m') = NONSET) /\
    vals_rel (r_sol r) sol' (fun j v => if owned (m_pt m) (m_np m) (osize sol) j then (v * s_delta (m_info (r_mesh r)))%Q else v) /\
    vals_rel (r_met r) met' (fun j v => if owned (m_pt m) (m_np m) (osize met) j
       then (v * (if otype met =? 1 then s_delta (m_info (r_mesh r))
                  else 1 / (s_delta (m_info (r_mesh r)) * s_delta (m_info (r_mesh r)))))%Q else v).
Proof.
  intros (F & P & Mk & Tf) H3 E Hok. destruct (scale_spec warn trunc m met sol F P Mk Tf) as (r' & E' & Hs & _).
  rewrite E' in E. injection E as ->. destruct (Hs Hok) as (dd & Rp & Ri & Rs & Rm & _ & _). clear Hs E'.
  pose proof Rp as (R1 & R2 & R3 & R4 & R5 & R6 & R7).
  assert (F' : fits (r_mesh r)). { destruct F. split; [rewrite R2, R3|rewrite R1]; assumption. }
  destruct (unscale_spec (r_mesh r) (r_met r) (r_sol r)) as (m' & met' & sol' & U & U1 & U2 & U3 & U4 & U5 & U6 & U7 & U8 & U9 & U10 & U11 & U12 & U13 & U14 & U15 & U16 & U17).
  { exact F'. } { eapply sizes_kept; eassumption. } { rewrite (osize_kept _ _ _ _ Rs). exact H3. }
  exists m', met', sol', dd. split; [exact U|]. split; [congruence|]. split; [congruence|].
  split; [intros j; rewrite U4; apply R4|]. split; [exact Rp|]. split; [exact Ri|]. split; [exact Rs|]. split; [exact Rm|].
  split; [now apply delta_inv|]. split; [rewrite R6; apply Qlt_shift_div_l; [exact R7|lra]|].
  split. { intros k i Hk Hi. apply U5; [|rewrite R1; exact Hi]. apply (same_valid m); assumption. }
  destruct Ri as (_ & _ & _ & _ & I5 & I6 & _).
  split. { unfold info_rel. rewrite U12, U13. repeat (split; [assumption|]). split; intros ->; reflexivity. }
  split; [rewrite U12, I5; now intros ->|]. split; [rewrite U13, I6; now intros ->|].
  rewrite R2 in *. split.
  - rewrite (osize_kept _ _ _ _ Rs) in U16. clear - U16 R4. unfold vals_rel in *. destruct (r_sol r) as [s|], sol' as [s'|]; try contradiction; [|exact I].
    destruct U16 as (A1 & A2 & A3 & A4). split; [exact A1|]. split; [exact A2|]. split; [exact A3|].
    destruct (l_m s), (l_m s'); try contradiction; [|exact I]. destruct A4 as (A4 & A5 & A6). split; [exact A4|]. split; [exact A5|].
    intros N j. rewrite A6 by exact N. now rewrite (owned_ext _ _ _ _ _ R4).
  - assert (X : osize (r_met r) = osize met /\ otype (r_met r) = otype met).
    { clear - Rm. unfold met_rel in Rm. destruct met, (r_met r); try contradiction; [|auto]. destruct Rm as (_ & A & B & _). cbn. auto. }
    destruct X as [X1 X2]. rewrite X1, X2 in U17.
    clear - U17 R4. unfold vals_rel in *. destruct (r_met r) as [s|], met' as [s'|]; try contradiction; [|exact I].
    destruct U17 as (A1 & A2 & A3 & A4). split; [exact A1|]. split; [exact A2|]. split; [exact A3|].
    destruct (l_m s), (l_m s'); try contradiction; [|exact I]. destruct A4 as (A4 & A5 & A6). split; [exact A4|]. split; [exact A5|].
    intros N j. rewrite A6 by exact N. now rewrite (owned_ext _ _ _ _ _ R4).
Qed.

Definition par_eq (p q : spar) : Prop :=
  (p_hmin p == p_hmin q)%Q /\ (p_hmax p == p_hmax q)%Q /\ (p_hausd p == p_hausd q)%Q.

(** Scaling then unscaling gives back the coordinates, the parameters, and the values of
    the level-set or displacement at the valid vertices. *)
Theorem scaling_inverse warn trunc m met sol r :
  ready trunc m met sol -> (forall s, sol = Some s -> l_size s <> 3) ->
  scaleMesh warn trunc m met sol = Ret r -> r_ok r = true ->
  exists m' met' sol', unscaleMesh (r_mesh r) (r_met r) (r_sol r) = Ret (m', met', sol') /\
    m_dim m' = m_dim m /\ m_np m' = m_np m /\ (forall j, vok (aget (m_pt m') j) = vok (aget (m_pt m) j)) /\
    (forall k i, valid m k -> 0 <= i < m_dim m -> (sc (aget (m_pt m') k) i == sc (aget (m_pt m) k) i)%Q) /\
    (s_hausd (m_info m') == s_hausd (m_info m))%Q /\ (s_ls (m_info m') == s_ls (m_info m))%Q /\
    (s_hsiz (m_info m') == s_hsiz (m_info m))%Q /\ Forall2 par_eq (s_par (m_info m')) (s_par (m_info m)) /\
    s_sethmin (m_info m') = s_sethmin (m_info m) /\ s_sethmax (m_info m') = s_sethmax (m_info m) /\
    (s_hmin (m_info m') == if s_sethmin (m_info m) then s_hmin (m_info m) else -1)%Q /\
    (s_hmax (m_info m') == if s_sethmax (m_info m) then s_hmax (m_info m) else -1)%Q /\
    (forall s a, sol = Some s -> l_m s = Some a ->
       exists s' a', sol' = Some s' /\ l_m s' = Some a' /\ l_np s' = l_np s /\ l_size s' = l_size s /\ l_type s' = l_type s /\
         alen a' = alen a /\
         forall k i, valid m k -> 0 <= i < l_size s -> (aget a' (k * l_size s + i) == aget a (k * l_size s + i))%Q).
Proof.
  intros Rd H3 E Hok.
  assert (H3' : osize sol <> 3) by (destruct sol as [s|]; [exact (H3 s eq_refl)|discriminate]).
  destruct (compose warn trunc m met sol r Rd H3' E Hok) as
    (m' & met' & sol' & dd & U & C1 & C2 & C3 & Rp & Ri & Rs & Rm & D & Dp & C4 & Ri' & N1 & N2 & Vs & Vm).
  exists m', met', sol'. split; [exact U|]. split; [exact C1|]. split; [exact C2|]. split; [exact C3|].
  set (dl := s_delta (m_info (r_mesh r))) in *.
  assert (M : forall x, (x * dd * dl == x)%Q).
  { intros x. rewrite <- Qmult_assoc, D. ring. }
  split.
  { intros k i Hk Hi. rewrite C4 by assumption. destruct Rp as (_ & _ & _ & _ & R5 & _). destruct (R5 k i Hk Hi) as [-> _].
    set (x := sc (aget (m_pt m) k) i). set (y := s_min _ _).
    setoid_replace (dd * (x - y) * dl + y)%Q with ((x - y) * dd * dl + y)%Q by ring. rewrite M. ring. }
  destruct Ri as (I1 & I2 & I3 & I4 & I5 & I6 & I7 & I8), Ri' as (J1 & J2 & J3 & J4 & J5 & J6 & J7 & J8).
  split; [rewrite J1, I1; apply M|]. split; [rewrite J2, I2; apply M|]. split; [rewrite J3, I3; apply M|].
  split.
  { rewrite J4, I4, map_map. clear - M. induction (s_par (m_info m)) as [|p l IH]; cbn [map]; constructor; [|exact IH].
    unfold par_eq, scale_par. cbn. auto. }
  split; [congruence|]. split; [congruence|].
  split. { destruct (s_sethmin (m_info m)) eqn:S; [rewrite J7, I7 by congruence; apply M|rewrite N1 by reflexivity; reflexivity]. }
  split. { destruct (s_sethmax (m_info m)) eqn:S; [rewrite J8, I8 by congruence; apply M|rewrite N2 by reflexivity; reflexivity]. }
  intros s a -> Ea. unfold sol_rel in Rs. rewrite Ea in Rs. destruct (r_sol r) as [s1|]; [|contradiction].
  destruct Rs as (A1 & A2 & A3 & A4). destruct (l_m s1) as [a1|] eqn:Ea1; [|contradiction]. destruct A4 as (A4 & A5 & A6).
  unfold vals_rel in Vs. rewrite Ea1 in Vs. destruct sol' as [s2|]; [|contradiction].
  destruct Vs as (B1 & B2 & B3 & B4). destruct (l_m s2) as [a2|] eqn:Ea2; [|contradiction]. destruct B4 as (B4 & B5 & B6).
  exists s2, a2. do 2 (split; [first [reflexivity|assumption]|]). split; [congruence|]. split; [congruence|]. split; [congruence|]. split; [congruence|].
  intros k i [Hk V] Hi. destruct (Z.eq_dec (l_np s) 0) as [Z0|NZ].
  - rewrite B5, A5 by congruence. reflexivity.
  - rewrite B6 by congruence. cbn [osize].
    destruct Rd as (F & [Ps _] & _). destruct Ps as (Ht & _ & Hm). rewrite Ea in Hm.
    destruct (owned_block (m_pt m) (m_np m) (l_size s) k i Hk V Hi) as [Ow Hb].
    rewrite A6; [|exact NZ|exact Hb]. rewrite Ow. apply M.
Qed.

(** A positive scalar metric comes back truncated by the bounds the user has set, and
    only by them: the bounds deduced from the mesh change nothing. *)
Theorem scalar_metric_inverse trunc m s a sol r :
  ready trunc m (Some s) sol -> (forall s, sol = Some s -> l_size s <> 3) ->
  l_type s = 1 -> l_m s = Some a -> l_np s <> 0 ->
  (s_sethmin (m_info m) = true -> (0 < s_hmin (m_info m))%Q) -> (s_sethmax (m_info m) = true -> (0 < s_hmax (m_info m))%Q) ->
  (s_sethmin (m_info m) = true -> s_sethmax (m_info m) = true -> (s_hmin (m_info m) <= s_hmax (m_info m))%Q) ->
  scaleMesh false trunc m (Some s) sol = Ret r -> r_ok r = true ->
  exists m' s' a' sol', unscaleMesh (r_mesh r) (r_met r) (r_sol r) = Ret (m', Some s', sol') /\
    l_m s' = Some a' /\ l_np s' = l_np s /\ l_size s' = l_size s /\ l_type s' = l_type s /\ alen a' = alen a /\
    forall k, valid m k ->
      let v := if s_sethmin (m_info m) then mg_max (s_hmin (m_info m)) (aget a k) else aget a k in
      (aget a' k == if s_sethmax (m_info m) then mg_min (s_hmax (m_info m)) v else v)%Q.
Proof.
  intros Rd H3 Ht Ea N0 P1 P2 P3 E Hok.
  assert (H3' : osize sol <> 3) by (destruct sol as [x|]; [exact (H3 x eq_refl)|discriminate]).
  destruct (compose false trunc m (Some s) sol r Rd H3' E Hok) as
    (m' & met' & sol' & dd & U & C1 & C2 & C3 & Rp & Ri & Rs & Rm & D & Dp & C4 & Ri' & N1 & N2 & Vs & Vm).
  set (dl := s_delta (m_info (r_mesh r))) in *.
  assert (Dl : (0 < dl)%Q) by apply Rp.
  assert (M : forall x, (x * dd * dl == x)%Q).
  { intros x. rewrite <- Qmult_assoc, D. ring. }
  unfold met_rel in Rm. rewrite Ea in Rm. destruct (r_met r) as [s1|]; [|contradiction].
  destruct Rm as (A1 & A2 & A3 & A4). destruct (l_m s1) as [a1|] eqn:Ea1; [|contradiction].
  destruct A4 as (A4 & _ & A6 & _). destruct (A6 N0 Ht) as (Hpos & (i0 & S1 & S2 & S3 & S4 & B1 & B2 & B3) & Hv & _). clear A6.
  unfold vals_rel in Vm. rewrite Ea1 in Vm. destruct met' as [s2|]; [|contradiction].
  destruct Vm as (V1 & V2 & V3 & V4). destruct (l_m s2) as [a2|] eqn:Ea2; [|contradiction]. destruct V4 as (V4 & _ & V6).
  exists m', s2, a2, sol'. split; [exact U|]. split; [exact Ea2|]. split; [congruence|]. split; [congruence|]. split; [congruence|]. split; [congruence|].
  intros k Hk v.
  assert (Hs : l_size s = 1).
  { destruct Rd as (_ & [_ Pm] & _). destruct Pm as ([[_ X]|[X _]] & _); [exact X|rewrite Ht in X; discriminate]. }
  assert (Ow : owned (m_pt m) (m_np m) 1 k = true).
  { destruct Hk as [Hk V]. destruct (owned_block (m_pt m) (m_np m) 1 k 0 Hk V) as [Ow _]; [split; [apply Z.le_refl|reflexivity]|].
    replace (k * 1 + 0) with k in Ow by (clear; lia). exact Ow. }
  rewrite V6 by congruence. cbn [osize otype]. rewrite Hs, Ow, Ht. change (1 =? 1) with true. cbn match. rewrite (Hv k Hk).
  assert (Pd : forall j, valid m j -> (0 < aget a j * dd)%Q).
  { intros j Hj. pose proof (Hpos eq_refl j Hj). clear - H Dp. nra. }
  destruct (B3 Pd) as (B4 & B5 & B6). specialize (B4 k Hk). specialize (B5 k Hk).
  destruct B6 as [B6 B7].
  { eauto. } { intros X. rewrite (S3 X). rewrite S1 in X. specialize (P1 X). clear - P1 Dp. nra. }
  { intros X. rewrite (S4 X). rewrite S2 in X. specialize (P2 X). clear - P2 Dp. nra. }
  { intros X Y. rewrite (S3 X), (S4 Y). rewrite S1 in X. rewrite S2 in Y. specialize (P3 X Y). clear - P3 Dp. nra. }
  set (hmin := s_hmin (m_info (r_mesh r))) in *. set (hmax := s_hmax (m_info (r_mesh r))) in *.
  assert (K1 : s_sethmin (m_info m) = true -> (hmin * dl == s_hmin (m_info m))%Q).
  { intros X. rewrite B1, S3 by congruence. apply M. }
  assert (K2 : s_sethmax (m_info m) = true -> (hmax * dl == s_hmax (m_info m))%Q).
  { intros X. rewrite B2, S4 by congruence. apply M. }
  assert (B4' : s_sethmin (m_info m) = false -> (hmin * dl <= aget a k)%Q).
  { intros X. rewrite <- (M (aget a k)). apply Qmult_le_compat_r; [|apply Qlt_le_weak, Dl]. apply B4. congruence. }
  assert (B5' : s_sethmax (m_info m) = false -> (aget a k <= hmax * dl)%Q).
  { intros X. rewrite <- (M (aget a k)). apply Qmult_le_compat_r; [|apply Qlt_le_weak, Dl]. apply B5. congruence. }
  assert (B7' : (hmin * dl <= hmax * dl)%Q) by (apply Qmult_le_compat_r; [exact B7|apply Qlt_le_weak, Dl]).
  assert (Res : (mg_min hmax (mg_max hmin (aget a k * dd)) * dl == mg_min (hmax * dl) (mg_max (hmin * dl) (aget a k)))%Q).
  { rewrite <- mg_min_scale by exact Dl. apply mg_min_comp; [reflexivity|]. rewrite <- mg_max_scale by exact Dl.
    apply mg_max_comp; [reflexivity|apply M]. }
  rewrite Res. clear Res Hv Hpos B1 B2 B3 B4 B5 B6 B7 S1 S2 S3 S4 Pd. subst v.
  set (x := (hmin * dl)%Q) in *. set (y := (hmax * dl)%Q) in *. clearbody x y.
  clear - K1 K2 B4' B5' B7'. unfold mg_min, mg_max.
  destruct (s_sethmin (m_info m)), (s_sethmax (m_info m));
    try specialize (K1 eq_refl); try specialize (K2 eq_refl); try specialize (B4' eq_refl); try specialize (B5' eq_refl);
    repeat match goal with |- context [Qltb ?p ?q] =>
      lazymatch p with context [if _ then _ else _] => fail | _ => idtac end;
      lazymatch q with context [if _ then _ else _] => fail | _ => idtac end;
      destruct (Qltb_spec p q) as [[-> ?]|[-> ?]] end; lra.
Qed.

(** A tensor metric that the truncation leaves alone comes back.
    Missing: the truncation of tensors itself (it diagonalises them). *)
Theorem tensor_metric_inverse_partial warn trunc m s a sol r :
  ready trunc m (Some s) sol -> (forall s, sol = Some s -> l_size s <> 3) ->
  l_type s = 3 -> l_m s = Some a -> l_np s <> 0 ->
  (forall m a j, (aget (snd (trunc m a)) j == aget a j)%Q) ->
  scaleMesh warn trunc m (Some s) sol = Ret r -> r_ok r = true ->
  exists m' s' a' sol', unscaleMesh (r_mesh r) (r_met r) (r_sol r) = Ret (m', Some s', sol') /\
    l_m s' = Some a' /\ l_np s' = l_np s /\ l_size s' = l_size s /\ l_type s' = l_type s /\
    forall k i, valid m k -> 0 <= i < l_size s -> (aget a' (k * l_size s + i) == aget a (k * l_size s + i))%Q.
Proof.
  intros Rd H3 Ht Ea N0 Hid E Hok.
  assert (H3' : osize sol <> 3) by (destruct sol as [x|]; [exact (H3 x eq_refl)|discriminate]).
  destruct (compose warn trunc m (Some s) sol r Rd H3' E Hok) as
    (m' & met' & sol' & dd & U & C1 & C2 & C3 & Rp & Ri & Rs & Rm & D & Dp & C4 & Ri' & N1 & N2 & Vs & Vm).
  set (dl := s_delta (m_info (r_mesh r))) in *.
  assert (Dl : (0 < dl)%Q) by apply Rp.
  unfold met_rel in Rm. rewrite Ea in Rm. destruct (r_met r) as [s1|]; [|contradiction].
  destruct Rm as (A1 & A2 & A3 & A4). destruct (l_m s1) as [a1|] eqn:Ea1; [|contradiction].
  destruct A4 as (A4 & _ & _ & A6). destruct (A6 N0 Ht) as (mt & at_ & _ & Ha1 & Hat). clear A6.
  unfold vals_rel in Vm. rewrite Ea1 in Vm. destruct met' as [s2|]; [|contradiction].
  destruct Vm as (V1 & V2 & V3 & V4). destruct (l_m s2) as [a2|] eqn:Ea2; [|contradiction]. destruct V4 as (V4 & _ & V6).
  exists m', s2, a2, sol'. split; [exact U|]. split; [exact Ea2|]. split; [congruence|]. split; [congruence|]. split; [congruence|].
  intros k i [Hk V] Hi.
  destruct (owned_block (m_pt m) (m_np m) (l_size s) k i Hk V Hi) as [Ow _].
  rewrite V6 by congruence. cbn [osize otype]. rewrite Ow, Ht. change (3 =? 1) with false. cbn match.
  rewrite Ha1, Hid, Hat, Ow.
  assert (Dd : (dd == / dl)%Q).
  { destruct Rp as (_ & _ & _ & _ & _ & -> & _). fold dl. unfold Qdiv. ring. }
  assert (Nd : ~ (dl == 0)%Q) by (intros X; rewrite X in Dl; now apply Qlt_irrefl in Dl).
  rewrite Dd. field. exact Nd.
Qed.

(** ** C31 *)

Theorem default_bounds i sethmin sethmax :
  (sethmin = true -> (0 < s_hmin i)%Q) -> (sethmax = true -> (0 < s_hmax i)%Q) ->
  exists ok i', Set_defaultTruncatureSizes i sethmin sethmax = Ret (ok, i') /\
    (ok = true -> (0 < s_hmin i')%Q /\ (s_hmin i' <= s_hmax i')%Q) /\
    (sethmin = true -> s_hmin i' = s_hmin i) /\ (sethmax = true -> s_hmax i' = s_hmax i) /\
    (ok = false <-> sethmin = true /\ sethmax = true /\ (s_hmax i < s_hmin i)%Q) /\
    i' = with_h i (s_hmin i') (s_hmax i').
Proof.
  intros Ha Hb.
  destruct (default_ok i sethmin sethmax) as (ok & i' & E & W & K1 & K2 & K3 & K4 & K5 & K6 & K7);
    [intros X; apply Qlt_le_weak; auto|intros X; apply Qlt_le_weak; auto|].
  exists ok, i'. split; [exact E|]. split.
  { intros X. split; [|auto]. destruct sethmin eqn:S1; [rewrite K1 by reflexivity; auto|].
    destruct sethmax eqn:S2; [|destruct (K4 eq_refl eq_refl) as [-> _]; reflexivity].
    rewrite K5 by reflexivity. destruct (mg_min_spec HMINCOE (HMINCOE * s_hmax i)) as (_ & _ & [->| ->]); [reflexivity|].
    specialize (Hb eq_refl). unfold HMINCOE. lra. }
  split; [exact K1|]. split; [exact K2|]. split; [|exact W].
  rewrite K7. destruct (Qltb_spec (s_hmax i') (s_hmin i')) as [[Q H]|[Q H]]; rewrite Q.
  - split; [intros _|reflexivity]. destruct sethmin eqn:S1, sethmax eqn:S2.
    + rewrite K1, K2 in H by reflexivity. auto.
    + exfalso. rewrite K6, K1 in H by reflexivity. specialize (Ha eq_refl).
      destruct (mg_max_spec HMAXCOE ((1 / HMINCOE) * s_hmin i)) as (_ & Mx & _).
      assert (E1000 : (1 / HMINCOE == 1000)%Q) by reflexivity. rewrite E1000 in Mx at 1.
      clear - H Mx Ha. set (z := mg_max _ _) in *. clearbody z. lra.
    + exfalso. rewrite K5, K2 in H by reflexivity. specialize (Hb eq_refl).
      destruct (mg_min_spec HMINCOE (HMINCOE * s_hmax i)) as (_ & Mn & _).
      set (z := mg_min _ _) in *. unfold HMINCOE in Mn. clear - H Mn Hb. lra.
    + exfalso. destruct (K4 eq_refl eq_refl) as [E1 E2]. rewrite E1, E2 in H. discriminate H.
  - split; [discriminate|]. intros (-> & -> & L). rewrite K1, K2 in H by reflexivity. exfalso. lra.
Qed.

(** Constant size: an unset bound holds the value -1 ([MMG5_NONSET_HMIN]). *)
Theorem constant_size_bounds i :
  (0 < s_hsiz i)%Q ->
  (if s_sethmin i then (0 < s_hmin i)%Q else s_hmin i = NONSET) ->
  (if s_sethmax i then (0 < s_hmax i)%Q else s_hmax i = NONSET) ->
  match Compute_constantSize i with
  | Some (h, i') => (h == s_hsiz i)%Q /\ (0 < s_hmin i')%Q /\ (s_hmin i' <= h)%Q /\ (h <= s_hmax i')%Q /\
      (s_sethmin i = true -> s_hmin i' = s_hmin i) /\ (s_sethmax i = true -> s_hmax i' = s_hmax i) /\
      i' = with_h i (s_hmin i') (s_hmax i')
  | None => s_sethmin i = true /\ (s_hsiz i < s_hmin i)%Q \/ s_sethmax i = true /\ (s_hmax i < s_hsiz i)%Q
  end.
Proof.
  intros Hh H1 H2. unfold Compute_constantSize, check_setted_hminhmax.
  destruct i as [mn mx dl hmin hmax hausd ls hsiz s1 s2 op is isf lag par].
  cbn [s_hmin s_hmax s_hsiz s_sethmin s_sethmax] in *.
  destruct (Qltb_spec hsiz hmin) as [[-> A]|[-> A]].
  { left. destruct s1; [auto|]. rewrite H1 in A. unfold NONSET in A. exfalso. lra. }
  destruct (Qltb_spec 0 hmax) as [[-> B]|[-> B]]; cbn [andb].
  - destruct s2; [|rewrite H2 in B; unfold NONSET in B; exfalso; lra].
    destruct (Qltb_spec hmax hsiz) as [[-> C]|[-> C]]; [right; auto|].
    destruct (Qltb_spec hmax 0) as [[-> X]|[-> X]]; [exfalso; lra|].
    destruct s1.
    + destruct (Qltb_spec hmin 0) as [[-> Y]|[-> Y]]; [exfalso; lra|].
      cbn [andb negb]. cbv zeta. cbn [s_hmin s_hmax with_h s_sethmin s_sethmax s_hsiz negb].
      assert (Eq : (mg_min hmax (mg_max hmin hsiz) == hsiz)%Q).
      { unfold mg_max, mg_min. destruct (Qltb_spec hsiz hmin) as [[-> ?]|[-> ?]];
          match goal with |- context [Qltb ?x ?y] => destruct (Qltb_spec x y) as [[-> ?]|[-> ?]] end; lra. }
      set (h := mg_min hmax (mg_max hmin hsiz)) in *. clearbody h. split; [exact Eq|]. split; [exact H1|].
      split; [lra|]. split; [lra|]. repeat split; auto.
    + rewrite andb_false_r. cbn [negb]. cbv zeta. cbn [s_hmin s_hmax with_h s_sethmin s_sethmax s_hsiz negb].
      assert (Eq : (mg_min hmax hsiz == hsiz)%Q).
      { unfold mg_min. destruct (Qltb_spec hmax hsiz) as [[-> Z]|[-> Z]]; lra. }
      destruct (mg_min_spec ((1 # 10) * mg_min hmax hsiz) ((1 # 10) * hmax)) as (M1 & M2 & M3).
      set (z := mg_min ((1 # 10) * mg_min hmax hsiz) ((1 # 10) * hmax)) in *. clearbody z.
      set (h := mg_min hmax hsiz) in *. clearbody h.
      assert (Pz : (0 < z)%Q) by (destruct M3 as [->| ->]; lra).
      split; [exact Eq|]. split; [exact Pz|]. cbn [s_hmin s_hmax with_h].
      split; [lra|]. split; [lra|]. split; [discriminate|]. split; reflexivity.
  - destruct s2; [exfalso; lra|]. rewrite !andb_false_r. 
    destruct s1.
    + destruct (Qltb_spec hmin 0) as [[-> Y]|[-> Y]]; [exfalso; lra|].
      cbn [andb negb]. cbv zeta. cbn [s_hmin s_hmax with_h s_sethmin s_sethmax s_hsiz negb].
      assert (Eq : (mg_max hmin hsiz == hsiz)%Q).
      { unfold mg_max. destruct (Qltb_spec hsiz hmin) as [[-> Z]|[-> Z]]; lra. }
      destruct (mg_max_spec (10 * mg_max hmin hsiz) (10 * hmin)) as (M1 & M2 & M3).
      set (z := mg_max (10 * mg_max hmin hsiz) (10 * hmin)) in *. clearbody z.
      set (h := mg_max hmin hsiz) in *. clearbody h.
      cbn [s_hmin s_hmax with_h]. repeat split; auto; try discriminate; try lra.
    + cbn [andb negb]. rewrite andb_false_r. cbv zeta. cbn [s_hmin s_hmax with_h s_sethmin s_sethmax s_hsiz negb].
      cbn [s_hmin s_hmax with_h]. repeat split; auto; try discriminate; try reflexivity; try lra.
Qed.

(** The bounds after scaling, without a metric (and without constant size or size
    optimisation, which set the bounds later), or with a scalar metric. *)
Theorem scaling_bounds trunc m met sol r :
  ready trunc m met sol ->
  (s_sethmin (m_info m) = true -> (0 < s_hmin (m_info m))%Q) -> (s_sethmax (m_info m) = true -> (0 < s_hmax (m_info m))%Q) ->
  (s_sethmin (m_info m) = true -> s_sethmax (m_info m) = true -> (s_hmin (m_info m) <= s_hmax (m_info m))%Q) ->
  (has_np met = false /\ (s_hsiz (m_info m) <= 0)%Q /\ s_optim (m_info m) = false \/
   (exists k, valid m k) /\ exists s a, met = Some s /\ l_type s = 1 /\ l_m s = Some a /\ l_np s <> 0) ->
  scaleMesh false trunc m met sol = Ret r -> r_ok r = true ->
  let h := s_hmin (m_info (r_mesh r)) in let H := s_hmax (m_info (r_mesh r)) in
  (0 < h)%Q /\ (h <= H)%Q /\
  (s_sethmin (m_info m) = true -> (h * s_delta (m_info (r_mesh r)) == s_hmin (m_info m))%Q) /\
  (s_sethmax (m_info m) = true -> (H * s_delta (m_info (r_mesh r)) == s_hmax (m_info m))%Q) /\
  (forall s a, r_met r = Some s -> l_type s = 1 -> l_np s <> 0 -> l_m s = Some a ->
     forall k, 1 <= k <= m_np m -> (h <= aget a k)%Q /\ (aget a k <= H)%Q).
Proof.
  intros (F & P & Mk & Tf) P1 P2 P3 Hc E Hok. destruct (scale_spec false trunc m met sol F P Mk Tf) as (r' & E' & Hs & _).
  rewrite E' in E. injection E as ->. destruct (Hs Hok) as (dd & Rp & Ri & Rs & Rm & _ & _ & Rd). clear Hs E' Hok.
  cbv zeta. set (h := s_hmin (m_info (r_mesh r))) in *. set (H := s_hmax (m_info (r_mesh r))) in *.
  assert (Dp : (0 < dd)%Q). { destruct Rp as (_ & _ & _ & _ & _ & -> & X). apply Qlt_shift_div_l; [exact X|lra]. }
  assert (Dd : (dd * s_delta (m_info (r_mesh r)) == 1)%Q). { apply delta_inv; apply Rp. }
  destruct Ri as (_ & _ & I3 & _ & I5 & I6 & I7 & I8). fold h in I7. fold H in I8.
  assert (U1 : s_sethmin (m_info m) = true -> (h * s_delta (m_info (r_mesh r)) == s_hmin (m_info m))%Q).
  { intros X. rewrite (I7 X), <- Qmult_assoc, Dd. ring. }
  assert (U2 : s_sethmax (m_info m) = true -> (H * s_delta (m_info (r_mesh r)) == s_hmax (m_info m))%Q).
  { intros X. rewrite (I8 X), <- Qmult_assoc, Dd. ring. }
  destruct Hc as [(Hm & Hz & Ho)|((k0 & Hk0) & s & a & -> & Ht & Ea & Nz)].
  - assert (B : Qltb 0 (s_hsiz (m_info (r_mesh r))) || s_optim (m_info m) = false).
    { rewrite Ho, orb_false_r. destruct (Qltb_spec 0 (s_hsiz (m_info (r_mesh r)))) as [[_ X]|[X _]]; [|exact X].
      rewrite I3 in X. exfalso. clear - X Hz Dp. nra. }
    destruct (Rd B Hm) as (D1 & D2 & D3 & D4).
    assert (Hp : (0 < h)%Q).
    { destruct (s_sethmin (m_info m)) eqn:S1; [rewrite I7 by reflexivity; specialize (P1 eq_refl); clear - P1 Dp; nra|].
      destruct (s_sethmax (m_info m)) eqn:S2; [|destruct (D2 eq_refl eq_refl) as [-> _]; reflexivity].
      rewrite D3 by reflexivity. specialize (I8 eq_refl). specialize (P2 eq_refl).
      destruct (mg_min_spec HMINCOE (HMINCOE * H)) as (_ & _ & [->| ->]); [reflexivity|].
      rewrite I8. unfold HMINCOE. clear - P2 Dp. nra. }
    split; [exact Hp|]. split; [exact D1|]. split; [exact U1|]. split; [exact U2|].
    intros s a Es _ Nz _. exfalso. unfold met_rel in Rm. rewrite Es in Rm. destruct met as [s0|]; [|contradiction].
    destruct Rm as (A1 & _). cbn in Hm. destruct (Z.eqb_spec (l_np s0) 0); [congruence|discriminate].
  - unfold met_rel in Rm. rewrite Ea in Rm. destruct (r_met r) as [s1|] eqn:Er; [|contradiction].
    destruct Rm as (A1 & A2 & A3 & A4). destruct (l_m s1) as [a1|] eqn:Ea1; [|contradiction].
    destruct A4 as (A4 & _ & A6 & _). destruct (A6 Nz Ht) as (Hpos & (i0 & S1 & S2 & S3 & S4 & B1 & B2 & B3) & Hv & Hv'). clear A6.
    assert (Pd : forall j, valid m j -> (0 < aget a j * dd)%Q).
    { intros j Hj. pose proof (Hpos eq_refl j Hj). clear - H0 Dp. nra. }
    destruct (B3 Pd) as (_ & _ & B6). destruct B6 as [B6 B7].
    { eauto. } { intros X. rewrite (S3 X). rewrite S1 in X. specialize (P1 X). clear - P1 Dp. nra. }
    { intros X. rewrite (S4 X). rewrite S2 in X. specialize (P2 X). clear - P2 Dp. nra. }
    { intros X Y. rewrite (S3 X), (S4 Y). rewrite S1 in X. rewrite S2 in Y. specialize (P3 X Y). clear - P3 Dp. nra. }
    fold h in B6, B7. fold H in B7.
    split; [exact B6|]. split; [exact B7|]. split; [exact U1|]. split; [exact U2|].
    intros s' a' Es _ _ Em k Hk. injection Es as <-. rewrite Ea1 in Em. injection Em as <-.
    assert (Cl : forall v, (h <= mg_min H (mg_max h v))%Q /\ (mg_min H (mg_max h v) <= H)%Q).
    { intros v. destruct (mg_min_spec H (mg_max h v)) as (M1 & _ & M3). destruct (mg_max_spec h v) as (M4 & _).
      split; [destruct M3 as [->| ->]; assumption|exact M1]. }
    destruct (vok (aget (m_pt m) k)) eqn:V.
    + rewrite (Hv k (conj Hk V)). apply Cl.
    + rewrite (Hv' k Hk); [fold H; split; [exact B7|apply Qle_refl]|]. intros [_ X]. congruence.
Qed.

(** ** Cases and counter-examples *)

Definition trunc_id (m : smesh) (a : arr Q) : bool * smesh * arr Q := (true, m, a).

Lemma trunc_id_frame : trunc_frame trunc_id.
Proof.
  intros m a. cbn. split; [unfold same_pts; auto|]. split; [reflexivity|].
  exists (s_hmin (m_info m)), (s_hmax (m_info m)). destruct (m_info m). cbn. auto.
Qed.

Definition pt3 (ok : bool) (x y z : Q) : spt :=
  mkSpt ok (fun i => if i =? 0 then x else if i =? 1 then y else if i =? 2 then z else 0%Q) 0 7.
Definition info0 (sethmin sethmax iso : bool) (hmin hmax : Q) : sinfo :=
  mkInfo (fun _ => 0%Q) (fun _ => 0%Q) 1%Q hmin hmax (1 # 100)%Q 0%Q (-1)%Q sethmin sethmax false iso false (-1) [mkSpar 1 2 3].
(** Four vertices; the third one is not used. *)
Definition mesh0 (i : sinfo) : smesh :=
  mkSm 3 4 0 (aof (pt3 false 0 0 0) [pt3 true 1 2 3; pt3 true 5 4 3; pt3 false 100 0 0; pt3 true 3 3 11]) i.
Definition sizes0 (a b c d : Q) : option ssol := Some (mkSol 4 1 1 (Some (aof 0%Q [a; b; c; d]))).
Definition get3 (m : smesh) (k : Z) : list Q := map (fun i => Qred (sc (aget (m_pt m) k) i)) [0; 1; 2].
Definition vals (s : option ssol) : list Q :=
  match s with Some s => match l_m s with Some a => map (fun k => Qred (aget a k)) [1; 2; 3; 4] | None => [] end | None => [] end.

Lemma mesh0_ready sethmin sethmax hmin hmax a b c d :
  ready trunc_id (mesh0 (info0 sethmin sethmax false hmin hmax)) (sizes0 a b c d) None.
Proof.
  split; [split; [cbn; lia|auto]|]. split.
  - split; [exact I|]. split; [left; auto|]. cbn. lia.
  - split; [|exact trunc_id_frame]. intros k Hk. cbn in Hk.
    assert (H : k = 1 \/ k = 2 \/ k = 3 \/ k = 4) by lia. destruct H as [->|[->|[->| ->]]]; vm_compute; discriminate.
Qed.

(** The box is 4 x 2 x 8: scaled by 1/8.  The size 7 of the unused vertex is ignored. *)
Example scale_case :
  bind (scaleMesh false trunc_id (mesh0 (info0 false false false (-1) (-1))) (sizes0 1 2 7 4) None)
    (fun r => bind (unscaleMesh (r_mesh r) (r_met r) (r_sol r))
      (fun '(m, met, _) => Ret (r_ok r, [get3 (r_mesh r) 1; get3 (r_mesh r) 2; get3 (r_mesh r) 3; get3 (r_mesh r) 4],
         vals (r_met r), map Qred [s_hmin (m_info (r_mesh r)); s_hmax (m_info (r_mesh r))],
         [get3 m 1; get3 m 2; get3 m 4], vals met, map Qred [s_hmin (m_info m); s_hmax (m_info m); s_hausd (m_info m)])))
  = Ret (true, [[0; 0; 0]; [1 # 2; 1 # 4; 0]; [100; 0; 0]; [1 # 4; 1 # 8; 1]]%Q,
         [1 # 8; 1 # 4; 5; 1 # 2]%Q, [1 # 80; 5]%Q,
         [[1; 2; 3]; [5; 4; 3]; [3; 3; 11]]%Q, [1; 2; 5; 4]%Q, [-1; -1; 1 # 100]%Q).
Proof. vm_compute. reflexivity. Qed.

(** With bounds 3/2 and 3 set by the user the sizes come back truncated. *)
Example scale_case_bounds :
  bind (scaleMesh false trunc_id (mesh0 (info0 true true false (3 # 2) 3)) (sizes0 1 2 7 4) None)
    (fun r => bind (unscaleMesh (r_mesh r) (r_met r) (r_sol r))
      (fun '(m, met, _) => Ret (r_ok r, vals met, map Qred [s_hmin (m_info m); s_hmax (m_info m)])))
  = Ret (true, [3 # 2; 2; 3 # 8; 3]%Q, [3 # 2; 3]%Q).
Proof. vm_compute. reflexivity. Qed.

Lemma ret_wit A (o : outcome A) (P : A -> Prop) :
  match o with Ret r => P r | Stuck => False end -> exists r, o = Ret r /\ P r.
Proof. destruct o; [eauto|contradiction]. Qed.

(** A level-set: the value at the unused vertex is scaled and stays so. *)
Theorem unused_levelset_refuted :
  exists m sol, ready trunc_id m None sol /\
    exists r, scaleMesh false trunc_id m None sol = Ret r /\
    exists u, unscaleMesh (r_mesh r) (r_met r) (r_sol r) = Ret u /\
      r_ok r = true /\ vals sol = [1; 2; 16; -4]%Q /\ vals (snd u) = [1; 2; 2; -4]%Q.
Proof.
  exists (mesh0 (info0 false false true (-1) (-1))), (sizes0 1 2 16 (-4)). split.
  - split; [split; [cbn; lia|auto]|]. split.
    + split; [|exact I]. split; [left; auto|]. split; [discriminate|]. cbn. lia.
    + split; [|exact trunc_id_frame]. intros k Hk. cbn in Hk.
      assert (H : k = 1 \/ k = 2 \/ k = 3 \/ k = 4) by lia. destruct H as [->|[->|[->| ->]]]; vm_compute; discriminate.
  - apply ret_wit. assert (H : match scaleMesh false trunc_id (mesh0 (info0 false false true (-1) (-1))) None (sizes0 1 2 16 (-4)) with
      | Ret r => match unscaleMesh (r_mesh r) (r_met r) (r_sol r) with
                 | Ret u => r_ok r = true /\ vals (sizes0 1 2 16 (-4)) = [1; 2; 16; -4]%Q /\ vals (snd u) = [1; 2; 2; -4]%Q
                 | Stuck => False end
      | Stuck => False end) by (vm_compute; auto).
    destruct (scaleMesh _ _ _ _ _) as [r|]; [|exact H]. now apply ret_wit.
Qed.

(** A refusal after the normalisation leaves the mesh in the unit box. *)
Theorem refused_scaling_refuted :
  exists m, ready trunc_id m None None /\ exists r, scaleMesh false trunc_id m None None = Ret r /\ r_ok r = false /\
    get3 m 4 = [3; 3; 11]%Q /\ get3 (r_mesh r) 4 = [1 # 4; 1 # 8; 1]%Q.
Proof.
  exists (mesh0 (info0 true true false 2 1)). split.
  - destruct (mesh0_ready true true 2 1 0 0 0 0) as (A & [B _] & C & D). split; [exact A|]. split; [split; exact I|]. split; [exact C|exact D].
  - apply ret_wit. vm_compute. auto.
Qed.

(** A 3D displacement (3 values per vertex) makes the assertion of [MMG5_unscaleMesh]
    fail: it compares the number of values with the code of tensors. *)
Theorem unscale_displacement_refuted :
  exists m sol, ready trunc_id m None sol /\ exists r, scaleMesh false trunc_id m None sol = Ret r /\ r_ok r = true /\
    unscaleMesh (r_mesh r) (r_met r) (r_sol r) = Stuck.
Proof.
  exists (mesh0 (mkInfo (fun _ => 0%Q) (fun _ => 0%Q) 1%Q (-1)%Q (-1)%Q (1 # 100)%Q 0%Q (-1)%Q false false false false false 1 [])).
  exists (Some (mkSol 4 3 2 (Some (acalloc 15 1%Q)))). split.
  - split; [split; [cbn; lia|auto]|]. split.
    + split; [|exact I]. split; [right; auto|]. split; [discriminate|]. cbn. lia.
    + split; [|exact trunc_id_frame]. intros k Hk. cbn in Hk.
      assert (H : k = 1 \/ k = 2 \/ k = 3 \/ k = 4) by lia. destruct H as [->|[->|[->| ->]]]; vm_compute; discriminate.
  - apply ret_wit. vm_compute. auto.
Qed.

(** A bound of 0 set by the user is taken: the minimal size is then not positive. *)
Theorem zero_bound_refuted :
  exists i i', (0 <= s_hmin i)%Q /\ (0 <= s_hmax i)%Q /\
    Set_defaultTruncatureSizes i true true = Ret (true, i') /\ ~ (0 < s_hmin i')%Q.
Proof.
  exists (info0 true true false 0 0). eexists. split; [cbn; lra|]. split; [cbn; lra|]. split; [reflexivity|].
  vm_compute. discriminate.
Qed.

(** With a metric the bounds set by the user are not compared: the minimal size ends up
    larger than the maximal size. *)
Theorem incoherent_bounds_refuted :
  exists m met, ready trunc_id m met None /\ exists r, scaleMesh false trunc_id m met None = Ret r /\ r_ok r = true /\
    (s_hmax (m_info (r_mesh r)) < s_hmin (m_info (r_mesh r)))%Q.
Proof.
  exists (mesh0 (info0 true true false 2 1)), (sizes0 1 2 7 4). split; [apply mesh0_ready|].
  apply ret_wit. vm_compute. auto.
Qed.

(** A metric with a negative size is refused by the first call in a process and taken by
    the following ones ([mmgWarn0] is static). *)
Theorem second_call_refuted :
  exists m met, ready trunc_id m met None /\
    exists r1, scaleMesh false trunc_id m met None = Ret r1 /\ r_ok r1 = false /\ r_warn r1 = true /\
    exists r2, scaleMesh (r_warn r1) trunc_id m met None = Ret r2 /\ r_ok r2 = true /\
    (s_hmin (m_info (r_mesh r2)) < 0)%Q.
Proof.
  exists (mesh0 (info0 false false false (-1) (-1))), (sizes0 1 (-2) 7 4). split; [apply mesh0_ready|].
  assert (H2 : exists r2, scaleMesh true trunc_id (mesh0 (info0 false false false (-1) (-1))) (sizes0 1 (-2) 7 4) None = Ret r2 /\
     r_ok r2 = true /\ (s_hmin (m_info (r_mesh r2)) < 0)%Q) by (apply ret_wit; vm_compute; auto).
  assert (H1 : exists r1, scaleMesh false trunc_id (mesh0 (info0 false false false (-1) (-1))) (sizes0 1 (-2) 7 4) None = Ret r1 /\
     r_ok r1 = false /\ r_warn r1 = true) by (apply ret_wit; vm_compute; auto).
  destruct H1 as (r1 & E1 & O1 & W1). exists r1. rewrite W1. auto.
Qed.

(** Cases of the bounds. *)
Example default_case :
  bind (Set_defaultTruncatureSizes (info0 false true false (-1) 5) false true) (fun '(ok, i) => Ret (ok, map Qred [s_hmin i; s_hmax i]))
  = Ret (true, [1 # 1000; 5]%Q).
Proof. vm_compute. reflexivity. Qed.

Example default_case_small :
  bind (Set_defaultTruncatureSizes (info0 true false false 3 (-1)) true false) (fun '(ok, i) => Ret (ok, map Qred [s_hmin i; s_hmax i]))
  = Ret (true, [3; 3000]%Q).
Proof. vm_compute. reflexivity. Qed.

Definition info_hsiz (h : Q) (i : sinfo) : sinfo :=
  mkInfo (s_min i) (s_max i) (s_delta i) (s_hmin i) (s_hmax i) (s_hausd i) (s_ls i) h (s_sethmin i) (s_sethmax i)
         (s_optim i) (s_iso i) (s_isosurf i) (s_lag i) (s_par i).

Example constant_case :
  (match Compute_constantSize (info_hsiz 2 (info0 false true false (-1) 5)) with
   | Some (h, i) => Some (map Qred [h; s_hmin i; s_hmax i]) | None => None end) = Some [2; 1 # 5; 5]%Q /\
  Compute_constantSize (info_hsiz 2 (info0 true false false 3 (-1))) = None.
Proof. vm_compute. auto. Qed.

(** Tensors: a 3D metric of 6 values per vertex. *)
Example tensor_case :
  bind (scaleMesh false trunc_id (mesh0 (info0 false false false (-1) (-1))) (Some (mkSol 4 6 3 (Some (acalloc 30 64%Q)))) None)
    (fun r => bind (unscaleMesh (r_mesh r) (r_met r) (r_sol r))
      (fun '(m, met, _) => Ret (r_ok r,
         match r_met r with Some s => match l_m s with Some a => map (fun k => Qred (aget a k)) [6; 17; 18] | _ => [] end | _ => [] end,
         match met with Some s => match l_m s with Some a => map (fun k => Qred (aget a k)) [6; 17; 18] | _ => [] end | _ => [] end)))
  = Ret (true, [4096; 4096; 64]%Q, [64; 64; 64]%Q).
Proof. vm_compute. reflexivity. Qed.

Print Assumptions scaling_defined.
Print Assumptions scaling_unit_box.
Print Assumptions scaling_inverse.
Print Assumptions scalar_metric_inverse.
Print Assumptions tensor_metric_inverse_partial.
Print Assumptions default_bounds.
Print Assumptions constant_size_bounds.
Print Assumptions scaling_bounds.
Print Assumptions unused_levelset_refuted.
Print Assumptions refused_scaling_refuted.
Print Assumptions unscale_displacement_refuted.
Print Assumptions zero_bound_refuted.
Print Assumptions incoherent_bounds_refuted.
Print Assumptions second_call_refuted.
