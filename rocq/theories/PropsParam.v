(** C29: parameters.  C44: sizes of the arrays and the memory parameter. *)
From Coq Require Import ZArith Reals List Bool Lia Lra.
From Coq Require Import ZifyBool.
From Verif Require Import CBase PoolModel ParamModel.
Import ListNotations.
Open Scope Z_scope.

(** ** C29 *)

(** Parameters with a getter and the values they can hold *)
Definition range (code : Z) : option (Z * Z) :=
  let int := Some (- 2 ^ 31, 2 ^ 31 - 1) in
  let byte := Some (-128, 127) in
  let ubyte := Some (0, 255) in
  nth (Z.to_nat code)
    [int; Some (1, 2 ^ 31 - 1); byte; Some (0, 1); byte; None; None; None; Some (0, 2);
     None; None; ubyte; ubyte; ubyte; ubyte; byte; byte; int; None; int; None; int; None; int; None; None] None.

Lemma conv_id c f v : let '(s, b) := ctype c f in
  (if s then - 2 ^ (b - 1) <= v < 2 ^ (b - 1) else 0 <= v < 2 ^ b) -> 0 < b -> conv c f v = v.
Proof.
  unfold conv. destruct (ctype c f) as [s b]. intros H Hb.
  assert (P : 2 ^ b = 2 * 2 ^ (b - 1)) by (rewrite <- Z.pow_succ_r by lia; f_equal; lia).
  destruct s; rewrite Z.mod_small; lia.
Qed.

Lemma conv_small c f v : (let '(s, b) := ctype c f in if s then - 2 ^ (b - 1) <= v < 2 ^ (b - 1) else 0 <= v < 2 ^ b) -> conv c f v = v.
Proof.
  intros H. pose proof (conv_id c f v) as P. assert (0 < snd (ctype c f)) by (destruct f; cbn; try lia; destruct (int64 c); lia).
  destruct (ctype c f) as [s b]. apply P; assumption.
Qed.

Lemma seti_same c s f v : iv (seti c s f v) f = conv c f v.
Proof. cbn. destruct (ifield_dec f f); congruence. Qed.
Lemma seti_other c s f g v : g <> f -> iv (seti c s f v) g = iv s g.
Proof. cbn. destruct (ifield_dec g f); congruence. Qed.
Lemma setd_same s f v : dv (setd s f v) f = v.
Proof. cbn. destruct (dfield_dec f f); congruence. Qed.
Lemma setd_other s f g v : g <> f -> dv (setd s f v) g = dv s g.
Proof. cbn. destruct (dfield_dec g f); congruence. Qed.

Lemma ANGEDG_pos : (0 < ANGEDG)%R.
Proof. unfold ANGEDG. lra. Qed.

Lemma decode_range c code p : decode_i c code = Some p -> 0 <= code < 26 /\ nth_error iparams (Z.to_nat code) = Some p.
Proof.
  unfold decode_i. destruct (Z.ltb_spec code 0); [discriminate|]. intros H1.
  assert (N : nth_error iparams (Z.to_nat code) = Some p).
  { destruct (nth_error iparams (Z.to_nat code)) as [q|]; [|discriminate].
    destruct q; try (injection H1 as <-; reflexivity); [destruct (scotch c)|destruct (pattern c)]; congruence. }
  split; [|exact N]. assert (L : (Z.to_nat code < length iparams)%nat) by (apply nth_error_Some; congruence). cbn in L. lia.
Qed.

(** The code of a parameter *)
Definition code_of (p : iparam) : Z :=
  match p with
  | I_verbose => 0 | I_mem => 1 | I_debug => 2 | I_angle => 3 | I_iso => 4 | I_isosurf => 5 | I_nofem => 6 | I_opnbdy => 7 | I_lag => 8
  | I_optim => 9 | I_optimLES => 10 | I_noinsert => 11 | I_noswap => 12 | I_nomove => 13 | I_nosurf => 14 | I_nreg => 15 | I_xreg => 16
  | I_numberOfLocalParam => 17 | I_numberOfLSBaseReferences => 18 | I_numberOfMat => 19 | I_numsubdomain => 20
  | I_renum => 21 | I_anisosize => 22 | I_octree => 23 | I_nosizreq => 24 | I_isoref => 25
  end.

Lemma decode_code c code p : decode_i c code = Some p -> code = code_of p.
Proof.
  intros H. destruct (decode_range c code p H) as [R N].
  assert (code = Z.of_nat (Z.to_nat code)) as -> by lia.
  destruct (Z.to_nat code) as [|n]; [injection N as <-; reflexivity|].
  do 25 (destruct n as [|n]; [injection N as <-; reflexivity|]). destruct n; discriminate.
Qed.

Ltac fields := repeat first [rewrite seti_same | rewrite seti_other by discriminate | rewrite setd_same | rewrite setd_other by discriminate].

(** An accepted value within the range of the parameter is read back. *)
Theorem C29_read_back : forall c w code val s s' lo hi, range code = Some (lo, hi) -> lo <= val <= hi ->
  Set_iparameter c w code val s = (1, s') -> Get_iparameter c code s' = val.
Proof.
  intros c w code val s s' lo hi Hr Hv. unfold Set_iparameter, Get_iparameter.
  destruct (decode_i c code) as [p|] eqn:Ed; [|discriminate]. apply decode_code in Ed. subst code.
  destruct p; cbn in Hr; try discriminate; injection Hr as <- <-; cbn [set_iparam get_iparam]; intros Es.
  all: try (injection Es as <-; fields; apply conv_small; cbn; lia).
  - destruct (Z.leb_spec val 0); [lia|]. destruct (mem_ok w); [|discriminate]. injection Es as <-. fields. apply conv_small. cbn. lia.
  - injection Es as <-. fields. pose proof ANGEDG_pos. destruct (Z.eqb_spec val 0); destruct (Rle_dec _ _); lia || lra.
  - destruct (_ && _); [discriminate|]. injection Es as <-. fields. apply conv_small. cbn. lia.
  - destruct (elas c); [|discriminate]. destruct (_ || _) eqn:E1; [discriminate|].
    destruct (val <? 2); injection Es as <-; fields; apply conv_small; cbn; lia.
  - destruct (alloc_ok w); [|discriminate]. injection Es as <-. fields. apply conv_small. cbn. lia.
  - destruct (alloc_ok w); [|discriminate]. injection Es as <-. fields. apply conv_small. cbn. lia.
Qed.
Print Assumptions C29_read_back.

(** A call changes no other parameter; only the Lagrangian mode also sets [noinsert],
    and angle detection is shared with the real parameter. *)
Theorem C29_frame : forall c w code code' val s, code <> code' -> ~ (code = 8 /\ code' = 11) ->
  Get_iparameter c code' (snd (Set_iparameter c w code val s)) = Get_iparameter c code' s.
Proof.
  intros c w code code' val s Hc Hl. unfold Set_iparameter, Get_iparameter.
  destruct (decode_i c code) as [p|] eqn:Ed; [|reflexivity].
  destruct (decode_i c code') as [q|] eqn:Eq; [|reflexivity].
  apply decode_code in Ed, Eq. subst code code'.
  assert (Inv : forall s', (forall f, iv s' f = iv s f) -> dv s' Dhd = dv s Dhd -> get_iparam q s' = get_iparam q s).
  { intros s' H1 H2. destruct q; cbn [get_iparam]; rewrite ?H1, ?H2; reflexivity. }
  destruct p; cbn [set_iparam].
  all: repeat match goal with |- context [if ?b then _ else _] => destruct b end.
  all: cbn [snd]; try reflexivity.
  all: destruct q; cbn [get_iparam]; try reflexivity; try (exfalso; apply Hc; reflexivity); try (exfalso; apply Hl; split; reflexivity).
  all: fields; try reflexivity.
Qed.
Print Assumptions C29_frame.

Theorem C29_frame_real : forall c code code' val s, code' <> 3 ->
  Get_iparameter c code' (snd (Set_dparameter c code val s)) = Get_iparameter c code' s.
Proof.
  intros c code code' val s Hc. unfold Set_dparameter, Get_iparameter.
  destruct (decode_d code) as [p|]; [|reflexivity]. destruct (decode_i c code') as [q|] eqn:Eq; [|reflexivity].
  apply decode_code in Eq. subst code'.
  destruct p; cbn [set_dparam]; repeat match goal with |- context [if ?b then _ else _] => destruct b end; cbn [snd]; try reflexivity.
  all: destruct q; cbn [get_iparam]; try reflexivity; try (exfalso; apply Hc; reflexivity).
Qed.
Print Assumptions C29_frame_real.

(** Unknown parameters, options that are not compiled and invalid Lagrangian modes are
    rejected without effect. *)
Theorem C29_invalid : forall c w code val s,
  code < 0 \/ 26 <= code \/ (code = 23 /\ pattern c = true) \/ (code = 21 /\ scotch c = false) \/
  (code = 8 /\ (elas c = false \/ val < 0 \/ 2 < val)) -> Set_iparameter c w code val s = (0, s).
Proof.
  intros c w code val s H. unfold Set_iparameter. destruct (decode_i c code) as [p|] eqn:Ed; [|reflexivity].
  destruct (decode_range c code p Ed) as [R N]. pose proof (decode_code c code p Ed) as Ec.
  destruct H as [H|[H|[[H1 H2]|[[H1 H2]|[H1 H2]]]]]; [lia|lia| | |].
  - subst code. unfold decode_i in Ed. cbn in Ed. rewrite H2 in Ed. discriminate.
  - subst code. unfold decode_i in Ed. cbn in Ed. rewrite H2 in Ed. discriminate.
  - subst code. destruct p; try discriminate. cbn [set_iparam]. destruct (elas c); [|reflexivity].
    destruct H2 as [H2|H2]; [discriminate|]. destruct (Z.ltb_spec val 0), (Z.ltb_spec 2 val); cbn [orb]; reflexivity || lia.
Qed.
Print Assumptions C29_invalid.

(** Any sequence of calls of the two setters *)
Inductive pcall := PI_ (w : world) (code val : Z) | PD_ (code : Z) (val : R).

Definition pstep (c : cfg) (s : info) (a : pcall) : info :=
  match a with
  | PI_ w code val => snd (Set_iparameter c w code val s)
  | PD_ code val => snd (Set_dparameter c code val s)
  end.

(** The last value given for a code *)
Fixpoint last_val (code : Z) (l : list pcall) (v : Z) : Z :=
  match l with
  | [] => v
  | PI_ _ k val :: l => last_val code l (if k =? code then val else v)
  | PD_ _ _ :: l => last_val code l v
  end.

(** The parameters whose calls never fail: verbose, debug, noinsert, noswap, nomove,
    nosurf, nreg, xreg, renum, octree *)
Definition plain (c : cfg) (code : Z) : Prop := In code [0; 2; 11; 12; 13; 14; 15; 16; 21; 23] /\ decode_i c code <> None.

(** The value read back at any time is the last one set, as long as values stay in the
    range of the parameter. *)
Theorem C29_history : forall c code lo hi l s, plain c code -> (elas c = true -> code <> 11) -> range code = Some (lo, hi) ->
  (forall w val, In (PI_ w code val) l -> lo <= val <= hi) ->
  Get_iparameter c code (fold_left (pstep c) l s) = last_val code l (Get_iparameter c code s).
Proof.
  intros c code lo hi l s (Hp & Hd) He Hr. revert s. induction l as [|a l IH]; intros s Hl; [reflexivity|].
  cbn [fold_left]. rewrite IH by (intros; apply (Hl w); right; assumption).
  destruct a as [w k val|k val]; cbn [last_val pstep].
  - f_equal. destruct (Z.eqb_spec k code) as [->|N].
    + destruct (Set_iparameter c w code val s) as [r s'] eqn:Es. cbn [snd].
      apply (C29_read_back c w code val s s' lo hi Hr (Hl w val (or_introl eq_refl))).
      rewrite Es. f_equal. unfold Set_iparameter in Es. destruct (decode_i c code) as [p|] eqn:Ed; [|congruence].
      apply decode_code in Ed. subst code. destruct p; cbn in Hp; cbn in Es; try lia; congruence.
    + destruct (Z.eq_dec k 8) as [->|N8].
      * unfold Set_iparameter. destruct (decode_i c 8) as [p|] eqn:Ed; [|reflexivity]. apply decode_code in Ed. destruct p; try discriminate.
        cbn [set_iparam]. destruct (elas c) eqn:Ee; [|reflexivity]. 
        pose proof (C29_frame c w 8 code val s N (fun H => He eq_refl (proj2 H))) as Fr.
        unfold Set_iparameter in Fr. change (decode_i c 8) with (Some I_lag) in Fr. cbn [set_iparam] in Fr. rewrite Ee in Fr. exact Fr.
      * apply C29_frame; [exact N|]. intros [? _]. contradiction.
  - f_equal. apply C29_frame_real. cbn in Hp. lia.
Qed.
Print Assumptions C29_history.

Definition cfg1 : cfg := mkCfg false false true false.
Definition w1 : world := mkW true true true.
Definition info0 : info := mkInfo (fun _ => 0) (fun _ => 0%R).

Example C29_case : plain cfg1 15 /\ range 15 = Some (-128, 127) /\
  Get_iparameter cfg1 15 (fold_left (pstep cfg1) [PI_ w1 15 1; PI_ w1 0 5; PD_ 27 (1/10)%R; PI_ w1 8 1; PI_ w1 15 0; PI_ w1 99 3; PI_ w1 15 1] info0) = 1 /\
  fst (Set_iparameter cfg1 w1 99 3 info0) = 0 /\ Set_iparameter cfg1 w1 15 1 info0 = (1, seti cfg1 info0 Nreg 1).
Proof. repeat split; try discriminate; cbn; tauto. Qed.

(** *** Real parameters *)

(** What is stored is what was given: sizes and distances directly, the angle through
    its cosine, the gradation through its logarithm.  A rejected call changes nothing. *)
Theorem C29_reals : forall c code val s r s', Set_dparameter c code val s = (r, s') ->
  (r = 0 -> s' = s) /\
  (r = 1 ->
    (code = 26 -> (0 <= val <= 180)%R -> acos (dv s' Dhd) = (val * PI / 180)%R) /\
    (code = 27 -> dv s' Hmin = val /\ iv s' Sethmin = 1) /\
    (code = 28 -> dv s' Hmax = val /\ iv s' Sethmax = 1) /\
    (code = 29 -> dv s' Hsiz = val) /\
    (code = 30 -> (0 < val)%R /\ dv s' Hausd = val) /\
    (code = 31 -> (0 < val)%R -> exp (dv s' Hgrad) = val) /\
    (code = 32 -> (0 < val)%R -> exp (dv s' Hgradreq) = val) /\
    (code = 33 -> dv s' Ls = val) /\
    (code = 34 -> (0 <= val <= 1)%R -> dv s' Lxreg = val) /\
    (code = 35 -> val <> 0%R -> dv s' Rmc = val)).
Proof.
  intros c code val s r s'. unfold Set_dparameter, decode_d. destruct (Z.ltb_spec code 26).
  { intros Eq. injection Eq as <- <-. split; [auto|]. intros; repeat split; intros; try lia; discriminate. }
  assert (code = 26 + Z.of_nat (Z.to_nat (code - 26))) as -> by lia.
  replace (26 + Z.of_nat (Z.to_nat (code - 26)) - 26) with (code - 26) by lia.
  destruct (Z.to_nat (code - 26)) as [|[|[|[|[|[|[|[|[|[|n]]]]]]]]]] eqn:En; cbn [nth_error dparams set_dparam].
  11:{ destruct n; cbn; intros Eq; injection Eq as <- <-; (split; [auto|]; intros; discriminate). }
  all: intros Eq.
  all: repeat match type of Eq with context [if ?b then _ else _] => destruct b end.
  all: injection Eq as <- <-; (split; [intros; try discriminate; reflexivity|]).
  all: intros R1; try discriminate R1; clear R1; repeat (apply conj); intros Hc; try lia; clear Hc; try reflexivity; try (intros Hv; try lra).
  all: try (fields; try reflexivity).
  - rewrite Rmin_right by lra. rewrite Rmax_right by lra. apply acos_cos. pose proof PI_RGT_0. nra.
  - split; reflexivity.
  - split; reflexivity.
  - split; [lra|reflexivity].
  - apply exp_ln. exact Hv.
  - apply exp_ln. exact Hv.
Qed.
Print Assumptions C29_reals.

Example C29_reals_case : exists s', Set_dparameter cfg1 26 60 info0 = (1, s') /\ dv s' Dhd = cos (PI / 3) /\
  fst (Set_dparameter cfg1 30 (-1) info0) = 0.
Proof.
  eexists. split; [reflexivity|]. fields. split.
  - rewrite Rmin_right by lra. rewrite Rmax_right by lra. f_equal. field.
  - unfold Set_dparameter. change (decode_d 30) with (Some D_hausd). cbn [set_dparam]. destruct (Rle_dec (-1) 0); [reflexivity|lra].
Qed.

(** *** Exceptions *)

(** A rejected call can change parameters: the isosurface mode and the number of local
    parameters or materials are stored before the step that fails. *)
Theorem C29_rejected_refuted : exists c w w' s,
  fst (Set_iparameter c w 4 1 s) = 0 /\ Get_iparameter c 4 s = 0 /\ Get_iparameter c 4 (snd (Set_iparameter c w 4 1 s)) = 1 /\
  fst (Set_iparameter c w' 17 5 s) = 0 /\ Get_iparameter c 17 s = 0 /\ Get_iparameter c 17 (snd (Set_iparameter c w' 17 5 s)) = 5.
Proof. exists cfg1, (mkW true false true), (mkW true true false), info0. repeat split; reflexivity. Qed.
Print Assumptions C29_rejected_refuted.

(** An accepted value can be read back as another one: 256 is stored on one byte. *)
Theorem C29_truncated_refuted : exists c w s s', Set_iparameter c w 11 256 s = (1, s') /\ Get_iparameter c 11 s' = 0.
Proof. exists cfg1, w1, info0. eexists. split; reflexivity. Qed.

(** Ten parameters can be set but not read: the getter reports an unknown parameter
    and returns 0. *)
Theorem C29_not_readable : forall c w code s, In code [5; 6; 7; 9; 10; 18; 20; 22; 24; 25] -> alloc_ok w = true ->
  fst (Set_iparameter c w code 1 s) = 1 /\ Get_iparameter c code (snd (Set_iparameter c w code 1 s)) = 0.
Proof.
  intros c w code s Hc Ha. unfold Set_iparameter, Get_iparameter. destruct (decode_i c code) as [p|] eqn:Ed.
  - apply decode_code in Ed. subst code. destruct p; cbn in Hc; try (exfalso; lia); cbn [set_iparam]; rewrite ?Ha; split; reflexivity.
  - exfalso. cbn in Hc. decompose [or] Hc; try contradiction; subst code; discriminate.
Qed.
Print Assumptions C29_not_readable.

Theorem C29_not_readable_refuted : exists c w code val s s', Set_iparameter c w code val s = (1, s') /\ Get_iparameter c code s' <> val.
Proof.
  exists cfg1, w1, 7, 1, info0. eexists. split; [reflexivity|]. discriminate.
Qed.

(** Angles from 90 degrees on are accepted but switch the detection off. *)
Theorem C29_angle : forall c val s, (90 <= val)%R ->
  fst (Set_dparameter c 26 val s) = 1 /\ Get_iparameter c 3 (snd (Set_dparameter c 26 val s)) = 0.
Proof.
  intros c val s Hv. unfold Set_dparameter, Get_iparameter. change (decode_d 26) with (Some D_angleDetection). change (decode_i c 3) with (Some I_angle).
  cbn [set_dparam get_iparam fst snd]. split; [reflexivity|]. fields.
  destruct (Rle_dec _ 0) as [|N]; [reflexivity|]. exfalso. apply N. clear N. pose proof PI_RGT_0 as HP.
  set (a := Rmax 0 (Rmin 180 val)).
  assert (90 <= a <= 180)%R.
  { unfold a. split; [apply Rle_trans with (Rmin 180 val); [apply Rmin_glb; lra|apply Rmax_r]|apply Rmax_lub; [lra|apply Rmin_l]]. }
  apply cos_le_0; [|].
  - nra.
  - nra.
Qed.
Print Assumptions C29_angle.

Theorem C29_angle_refuted : exists c val s s', Set_dparameter c 26 val s = (1, s') /\ (0 < val < 180)%R /\ Get_iparameter c 3 s' = 0.
Proof.
  exists cfg1, 120%R, info0. eexists. split; [reflexivity|]. split; [lra|]. apply (C29_angle cfg1 120 info0). lra.
Qed.

(** An out-of-range relaxation parameter is reported as accepted and ignored. *)
Theorem C29_out_of_range : forall c val s, (val < 0 \/ 1 < val)%R -> Set_dparameter c 34 val s = (1, s).
Proof.
  intros c val s Hv. unfold Set_dparameter. change (decode_d 34) with (Some D_xreg). cbn [set_dparam]. destruct (Rlt_dec val 0); [reflexivity|]. destruct (Rlt_dec 1 val); [reflexivity|]. exfalso. lra.
Qed.
Print Assumptions C29_out_of_range.

Theorem C29_out_of_range_refuted : exists c val s, Set_dparameter c 34 val s = (1, s) /\ dv s Lxreg <> val.
Proof.
  exists cfg1, 2%R, info0. split; [apply C29_out_of_range; lra|]. cbn. lra.
Qed.

(** A non-positive memory is announced as a return to the default but keeps the value
    set before. *)
Theorem C29_memory_reset_refuted : exists c w s s', Get_iparameter c 1 s = -1 /\
  s' = snd (Set_iparameter c w 1 (-1) (snd (Set_iparameter c w 1 500 s))) /\ Get_iparameter c 1 s' = 500.
Proof.
  exists cfg1, w1, (mkInfo (fun f => match f with Mem => -1 | _ => 0 end) (fun _ => 0%R)). eexists.
  split; [reflexivity|]. split; reflexivity.
Qed.

(** ** C44 *)

Inductive mcall := CMem (val : Z) | CSize (np ne nprism nt nquad : Z).

Definition mstep (z : sizes) (phys : Z) (s : caps) (a : mcall) : Z * caps :=
  match a with
  | CMem v => set_mem z phys v s
  | CSize np ne nprism nt nquad => set_size z phys np ne nprism nt nquad s
  end.

(** State after the initialisation *)
Definition caps0 (phys : Z) : caps := mkC 0 0 0 0 0 0 0 0 (phys / 2) (-1) None.

Definition mrun (z : sizes) (phys : Z) (l : list mcall) : caps := fold_left (fun s a => snd (mstep z phys s a)) l (caps0 phys).

Lemma mem_option_ok z phys s s' : 0 < pt_bytes z -> 0 <= c_np s -> 0 <= c_ne s -> mem_option z phys s = (1, s') ->
  c_np s' = c_np s /\ c_ne s' = c_ne s /\ c_np s <= c_npmax s' /\ c_ne s <= c_nemax s'.
Proof.
  intros Hz Hn He. unfold mem_option, memRepartition. set (u := used_mem _ _ _ _ _ _). set (m := mem_set _ _ _).
  destruct (Z.ltb_spec m u); [discriminate|]. intros Eq.
  apply (f_equal snd) in Eq. cbn [snd] in Eq. subst s'. cbn [c_np c_ne c_npmax c_nemax].
  assert (0 <= (m - u) / (2 * pt_bytes z)) by (apply Z.div_pos; lia).
  assert (c_np s <= 3 * c_np s / 2) by (apply Z.div_le_lower_bound; lia).
  assert (c_ne s <= 3 * c_ne s / 2) by (apply Z.div_le_lower_bound; lia).
  split; [reflexivity|]. split; [reflexivity|]. generalize dependent ((m - u) / (2 * pt_bytes z)). intros q Hq.
  split; apply Z.min_glb; lia.
Qed.

(** Whatever was set before, a successful announcement of the sizes of the mesh
    allocates the arrays with the recorded capacities, and the entities fit. *)
Theorem C44_partial : forall z phys l np ne nprism nt nquad s', 0 < pt_bytes z -> 0 <= np -> 0 <= ne ->
  set_size z phys np ne nprism nt nquad (mrun z phys l) = (1, s') ->
  c_arr s' = Some (c_npmax s', c_nemax s') /\ c_np s' = np /\ c_ne s' = ne /\ 0 < np <= c_npmax s' /\ ne <= c_nemax s'.
Proof.
  intros z phys l np ne nprism nt nquad s' Hz Hnp Hne. unfold set_size. destruct (Z.eqb_spec np 0); [discriminate|]. cbn [c_mem c_npmax c_ntmax c_nemax].
  remember (mrun z phys l) as s0 eqn:E0. clear E0.
  set (s1 := mkC np nt ne nprism nquad (c_npmax s0) (c_nemax s0) (c_ntmax s0) (c_memMax s0) (c_mem s0) None).
  assert (K : forall ok s2, (if 0 <? c_mem s0
      then if (c_npmax s0 <? np) || (c_ntmax s0 <? nt) || (c_nemax s0 <? ne) then mem_option z phys s1 else if c_mem s0 <? 39 then (0, s1) else (1, s1)
      else mem_option z phys s1) = (ok, s2) -> ok <> 0 -> c_np s2 = np /\ c_ne s2 = ne /\ np <= c_npmax s2 /\ ne <= c_nemax s2).
  { intros ok s2. assert (M : mem_option z phys s1 = (ok, s2) -> ok <> 0 -> c_np s2 = np /\ c_ne s2 = ne /\ np <= c_npmax s2 /\ ne <= c_nemax s2).
    { intros Em Hok. assert (ok = 1) as ->.
      { unfold mem_option in Em. destruct (memRepartition _ _ _ _ _ _ _ _ _) as [[? ?]|]; injection Em as <- _; congruence. }
      apply (mem_option_ok z phys s1 s2 Hz); assumption. }
    destruct (0 <? c_mem s0); [|exact M]. destruct (_ || _) eqn:Eo; [exact M|].
    destruct (c_mem s0 <? 39); intros Eq Hok; injection Eq as <- <-; [congruence|]. unfold s1. cbn [c_np c_ne c_npmax c_nemax]. clear M. lia. }
  match goal with |- context [let '(ok, s) := ?e in _] => destruct e as [ok s2] eqn:Ee end.
  destruct (Z.eqb_spec ok 0) as [|Nok]; [discriminate|]. intros Eq. apply (f_equal snd) in Eq. cbn [snd] in Eq. subst s'. cbn [c_arr c_npmax c_nemax c_np c_ne].
  specialize (K ok s2). cbn [c_npmax c_nemax c_ntmax c_mem] in Ee. destruct (K eq_refl Nok) as (_ & _ & A & B). repeat split; try reflexivity; lia.
Qed.
Print Assumptions C44_partial.

(** Sizes of the C types of a 64-bit build *)
Definition sizes_std : sizes := mkSz 80 96 64 96 64 4 20 8 48 40.

Example C44_case : exists s', set_size sizes_std (16 * 2 ^ 30) 100000 500000 0 20000 0 (mrun sizes_std (16 * 2 ^ 30) [CMem 100]) = (1, s') /\
  c_npmax s' = 127268 /\ c_nemax s' = 663608.
Proof. eexists. vm_compute. split; [reflexivity|]. split; reflexivity. Qed.

(** Raising the memory once the arrays exist raises the recorded capacities but not the
    arrays: the next creations would write behind their ends. *)
Theorem C44_refuted : exists z phys l a b, 0 < pt_bytes z /\
  c_arr (mrun z phys l) = Some (a, b) /\ a < c_npmax (mrun z phys l) /\ b < c_nemax (mrun z phys l).
Proof.
  exists sizes_std, (16 * 2 ^ 30), [CMem 100; CSize 100000 500000 0 20000 0; CMem 200]. eexists. eexists.
  split; [reflexivity|]. split; [vm_compute; reflexivity|]. split; vm_compute; reflexivity.
Qed.
Print Assumptions C44_refuted.
