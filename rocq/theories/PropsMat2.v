(** C15: the table of materials is inverted correctly. *)
From Coq Require Import ZArith QArith List Lia Bool.
From Coq Require Import ZifyBool ZifyNat.
From Verif Require Import CBase Chain MeshModel PoolModel PackModel BdryProofs MatModel PropsMat.
Import ListNotations.
Open Scope Z_scope.

(** The calls that give a list of materials. *)
Definition feed (r : mrefs) (ms : list mat) : list op :=
  map (fun m => OMat r (mref m) (mspl m) (mrin m) (mrex m)) ms.

(** References that a material uses: its own one and, when split, those of the sides.
    A list is compatible when no reference is used by two materials and the two
    sides of a material have different references. *)
Definition compat (ms : list mat) : Prop :=
  (forall i j m m' x, nth_error ms i = Some m -> nth_error ms j = Some m' ->
     In x (refs_of m) -> In x (refs_of m') -> i = j) /\
  (forall m, In m ms -> mspl m = MMAT_Split -> mrin m <> mrex m).
Definition wf_mat (m : mat) : Prop :=
  ref_ok (mref m) /\ ref_ok (mrin m) /\ ref_ok (mrex m) /\ (mspl m = MMAT_Split \/ mspl m = MMAT_NoSplit).

Definition len (ms : list mat) : Z := Z.of_nat (length ms).

(** The table holds [ms] and the lookup array is its inverse. *)
Definition inverted (s : info) (r : mrefs) (ms : list mat) : Prop :=
  inmat s = len ms /\ alen (imat s) = len ms /\
  (forall i m, nth_error ms i = Some m -> aget (imat s) (Z.of_nat i) = m) /\
  (forall m x, In m ms -> In x (refs_of m) -> ioff s <= x < ioff s + alen (ilook s)) /\
  (forall x, In x (mrefs_all r) -> ioff s <= x < ioff s + alen (ilook s)) /\
  (forall i m x, nth_error ms i = Some m -> In x (refs_of m) ->
     aget (ilook s) (x - ioff s) = inv_code (Z.of_nat i) (attr m x)) /\
  (forall x, ioff s <= x < ioff s + alen (ilook s) -> (forall m, In m ms -> ~ In x (refs_of m)) ->
     aget (ilook s) (x - ioff s) = 0).

Lemma in_ref m : In (mref m) (refs_of m).
Proof. unfold refs_of. destruct (_ =? 0); left; reflexivity. Qed.

Lemma int8_split m : wf_mat m -> int8 (mspl m) = mspl m.
Proof. intros (_ & _ & _ & [-> | ->]); reflexivity. Qed.

Lemma mat_eta m : mkM (mref m) (mspl m) (mrin m) (mrex m) = m.
Proof. destruct m. reflexivity. Qed.

Section Feed.
Variables (r : mrefs) (ms : list mat).
Hypothesis Hwf : Forall wf_mat ms.
Hypothesis Hc : compat ms.
Hypothesis Hr : forall x, In x (mrefs_all r) -> ref_ok x.

Definition pre_ok (s : info) (pre : list mat) : Prop :=
  inmat s = len ms /\ alen (imat s) = len ms /\ inmati s = len pre /\
  (forall i m, nth_error pre i = Some m -> aget (imat s) (Z.of_nat i) = m).

Lemma nth_app A (l l' : list A) x i y : nth_error (l ++ [x]) i = Some y ->
  (nth_error l i = Some y) \/ (i = length l /\ x = y).
Proof.
  intros H. destruct (Nat.lt_ge_cases i (length l)) as [L|L].
  - left. rewrite nth_error_app1 in H by exact L. exact H.
  - right. rewrite nth_error_app2 in H by exact L.
    destruct (i - length l)%nat as [|n] eqn:E; cbn in H; [|destruct n; discriminate].
    split; [lia|congruence].
Qed.

Lemma done s : pre_ok s ms -> 0 < len ms ->
  exists s', multimat_init r true s = Ret (1, s') /\ inverted s' r ms.
Proof.
  intros (P1 & P2 & P3 & P4) Hl.
  assert (Hst : forall m, In m (stored (imat s) (inmat s)) -> In m ms).
  { intros m Hm. apply in_stored in Hm. destruct Hm as (i & Hi & <-). rewrite P1 in Hi.
    destruct (nth_error ms (Z.to_nat i)) as [m|] eqn:E.
    - pose proof (P4 _ _ E) as Q. rewrite Z2Nat.id in Q by lia. rewrite Q. apply (nth_error_In _ _ E).
    - apply nth_error_None in E. unfold len in Hi. lia. }
  assert (Hts : forall i m, nth_error ms i = Some m -> 0 <= Z.of_nat i < inmat s).
  { intros i m E. rewrite P1. assert (i < length ms)%nat by (apply nth_error_Some; congruence). unfold len. lia. }
  assert (Hall : forall m x, In m ms -> In x (refs_of m) -> ref_ok x).
  { intros m x Hm Hx. pose proof (proj1 (Forall_forall _ _) Hwf m Hm) as (W1 & W2 & W3 & _).
    rewrite <- (mat_eta m) in Hx. apply (refs_store _ _ _ _ _ W1 W2 W3 Hx). }
  destruct (multimat_init_ok r s) as (off & look & E & F1 & F2 & F3 & F4).
  - congruence.
  - lia.
  - intros m x Hm. apply Hall. apply Hst. exact Hm.
  - exact Hr.
  - exists (with_look s off look). split; [exact E|]. cbn [inmat imat ioff ilook with_look].
    split; [exact P1|]. split; [exact P2|]. split; [exact P4|]. split; [|split; [exact F2|split]].
    + intros m x Hm Hx. apply (F1 m x); [|exact Hx]. apply in_stored.
      apply In_nth_error in Hm. destruct Hm as (i & Ei). exists (Z.of_nat i). split; [apply (Hts _ _ Ei)|apply P4; exact Ei].
    + intros i m x Ei Hx. rewrite <- (P4 _ _ Ei). apply F3; [|apply (Hts _ _ Ei)|].
      * split.
        -- intros i' j' x' Hi' Hj' Hxi Hxj. rewrite P1 in Hi', Hj'.
           destruct (nth_error ms (Z.to_nat i')) as [mi|] eqn:Ei'; [|apply nth_error_None in Ei'; unfold len in Hi'; lia].
           destruct (nth_error ms (Z.to_nat j')) as [mj|] eqn:Ej'; [|apply nth_error_None in Ej'; unfold len in Hj'; lia].
           pose proof (P4 _ _ Ei') as Qi. pose proof (P4 _ _ Ej') as Qj. rewrite Z2Nat.id in Qi, Qj by lia.
           rewrite Qi in Hxi. rewrite Qj in Hxj. pose proof (proj1 Hc _ _ _ _ _ Ei' Ej' Hxi Hxj). lia.
        -- intros i' Hi' Hsp.
           assert (Hm : In (aget (imat s) i') ms) by (apply Hst; apply in_stored; exists i'; split; [exact Hi'|reflexivity]).
           apply (proj2 Hc _ Hm). pose proof (proj1 (Forall_forall _ _) Hwf _ Hm) as (_ & _ & _ & [W|W]); [exact W|contradiction].
      * rewrite (P4 _ _ Ei). exact Hx.
    + intros x Hx Hn. apply F4; [exact Hx|]. intros i Hi. apply Hn. apply Hst. apply in_stored. exists i. auto.
Qed.

Lemma feed_ok post : forall pre s, ms = pre ++ post -> post <> [] -> pre_ok s pre ->
  exists h s', calls (feed r post) s = Ret (h, s') /\ Forall (fun x => snd x = 1) h /\ inverted s' r ms.
Proof.
  induction post as [|m post IH]; intros pre s E Hne P; [contradiction|clear Hne].
  cbn [feed map calls call]. destruct P as (P1 & P2 & P3 & P4).
  assert (Hm : In m ms) by (rewrite E; apply in_or_app; right; left; reflexivity).
  assert (Nm : nth_error ms (length pre) = Some m).
  { rewrite E, nth_error_app2 by lia. rewrite Nat.sub_diag. reflexivity. }
  assert (Hlen : len ms = len pre + 1 + len post) by (unfold len; rewrite E, app_length; cbn [length]; lia).
  pose proof (proj1 (Forall_forall _ _) Hwf m Hm) as W. pose proof W as (W1 & W2 & W3 & W4).
  assert (S0 : 0 <= len pre /\ 0 <= len post) by (unfold len; lia).
  assert (Step : set_mat r true (mref m) (mspl m) (mrin m) (mrex m) s =
    let s' := put_mat s (inmati s + 1) (mkArr (alen (imat s)) (upd (aget (imat s)) (inmati s) m)) in
    if inmati s + 1 =? inmat s then multimat_init r true s' else Ret (1, s')).
  { unfold set_mat. unfold ref_ok in W1.
    destruct (Z.eqb_spec (inmat s) 0); [lia|]. destruct (Z.leb_spec (inmat s) (inmati s)); [lia|].
    destruct (Z.ltb_spec (mref m) 0); [lia|].
    destruct (find_first_ok _ (imat s) (fun m' => mref m' =? mref m) (inmati s)) as (o & Eo & Po); [lia|].
    rewrite Eo. cbn [bind]. destruct o as [k|].
    - exfalso. destruct Po as [Hk Pk]. apply Z.eqb_eq in Pk. rewrite P3 in Hk.
      destruct (nth_error pre (Z.to_nat k)) as [m'|] eqn:Ek; [|apply nth_error_None in Ek; unfold len in Hk; lia].
      pose proof (P4 _ _ Ek) as Q. rewrite Z2Nat.id in Q by lia. rewrite Q in Pk.
      assert (Ek' : nth_error ms (Z.to_nat k) = Some m') by (rewrite E, nth_error_app1; [exact Ek|unfold len in Hk; lia]).
      pose proof (proj1 Hc _ _ _ _ (mref m) Ek' Nm) as C. unfold len in Hk.
      assert (Z.to_nat k = length pre) by (apply C; [rewrite <- Pk|]; apply in_ref). lia.
    - replace (negb (mspl m =? MMAT_Split) && negb (mspl m =? MMAT_NoSplit)) with false
        by (destruct W4 as [-> | ->]; reflexivity).
      rewrite wr_ok by lia. cbn [bind]. rewrite (int8_split _ W), mat_eta. reflexivity. }
  rewrite Step. cbv zeta.
  assert (P' : pre_ok (put_mat s (inmati s + 1) (mkArr (alen (imat s)) (upd (aget (imat s)) (inmati s) m))) (pre ++ [m])).
  { split; [exact P1|]. split; [exact P2|]. cbn [imat inmati put_mat aget].
    split; [unfold len; rewrite app_length; cbn [length]; unfold len in P3; lia|].
    intros i m' Hi. apply nth_app in Hi; [|exact ms]. destruct Hi as [Hi|[-> <-]].
    - assert (i < length pre)%nat by (apply nth_error_Some; congruence).
      rewrite upd_other by (unfold len in P3; lia). apply P4. exact Hi.
    - rewrite P3. apply upd_same. }
  destruct post as [|m' post].
  - destruct (Z.eqb_spec (inmati s + 1) (inmat s)) as [_|N]; [|unfold len in *; cbn [length] in *; lia].
    rewrite <- E in P'. destruct (done _ P') as (s' & E' & I'); [unfold len in *; lia|].
    rewrite E'. cbn [bind map calls]. eexists _, s'. split; [reflexivity|]. split; [|exact I'].
    constructor; [reflexivity|constructor].
  - destruct (Z.eqb_spec (inmati s + 1) (inmat s)) as [N|_]; [unfold len in *; cbn [length] in *; lia|].
    cbn [bind]. destruct (IH (pre ++ [m]) _ ltac:(rewrite E, <- app_assoc; reflexivity) ltac:(discriminate) P')
      as (h & s' & E' & Hh & I').
    change (map (fun m0 => OMat r (mref m0) (mspl m0) (mrin m0) (mrex m0)) (m' :: post)) with (feed r (m' :: post)).
    rewrite E'. cbn [bind]. eexists _, s'. split; [reflexivity|]. split; [|exact I'].
    constructor; [reflexivity|exact Hh].
Qed.
End Feed.

(** ** Queries on an inverted table *)

Lemma quot_code k a : 0 <= k -> 0 <= a <= 3 -> Z.quot (inv_code k a) 4 = k + 1 /\ Z.rem (inv_code k a) 4 = a.
Proof.
  intros Hk Ha. unfold inv_code. rewrite Z.quot_div_nonneg, Z.rem_mod_nonneg by lia.
  replace (4 * (k + 1) + a) with (a + (k + 1) * 4) by lia. rewrite Z.div_add, Z.mod_add by lia.
  rewrite Z.div_small, Z.mod_small by lia. lia.
Qed.

Lemma attr_range m x : wf_mat m -> 0 <= attr m x <= 3.
Proof.
  intros (_ & _ & _ & W). unfold attr, MG_PLUS, MG_MINUS. unfold MMAT_Split, MMAT_NoSplit in W.
  destruct (mspl m =? 0), (x =? mrex m), (x =? mrin m); lia.
Qed.

Section Query.
Variables (r : mrefs) (ms : list mat) (s : info).
Hypothesis Hne : ms <> [].
Hypothesis Hwf : Forall wf_mat ms.
Hypothesis Hc : compat ms.
Hypothesis I : inverted s r ms.

Lemma nz : (inmat s =? 0) = false.
Proof using Hne I. clear Hwf Hc. destruct I as (I1 & _). rewrite I1. destruct ms; [contradiction|]. unfold len. cbn [length]. lia. Qed.

Lemma index_in i m x : nth_error ms i = Some m -> In x (refs_of m) ->
  inv_index s x = Ret (Z.of_nat i) /\ inv_attrib s x = Ret (attr m x) /\ rd (imat s) (Z.of_nat i) = Ret m.
Proof using Hwf I. clear Hne Hc.
  intros Ei Hx. destruct I as (I1 & I2 & I3 & I4 & I5 & I6 & I7).
  assert (Hm : In m ms) by (apply (nth_error_In _ _ Ei)).
  pose proof (proj1 (Forall_forall _ _) Hwf m Hm) as W.
  specialize (I4 m x Hm Hx). specialize (I6 _ _ _ Ei Hx).
  unfold inv_index, inv_attrib, inv_key. rewrite rd_ok by lia. cbn [bind]. rewrite I6.
  destruct (quot_code (Z.of_nat i) (attr m x)) as [-> ->]; [lia|apply attr_range; exact W|].
  split; [f_equal; lia|]. split; [reflexivity|].
  assert (i < length ms)%nat by (apply nth_error_Some; congruence).
  rewrite rd_ok by (unfold len in I2; lia). rewrite (I3 _ _ Ei). reflexivity.
Qed.

Lemma index_out x : ioff s <= x < ioff s + alen (ilook s) -> (forall m, In m ms -> ~ In x (refs_of m)) ->
  inv_index s x = Ret (-1) /\ inv_attrib s x = Ret 0.
Proof using I. clear Hne Hwf Hc.
  intros Hx Hn. destruct I as (I1 & I2 & I3 & I4 & I5 & I6 & I7).
  specialize (I7 x Hx Hn). unfold inv_index, inv_attrib, inv_key. rewrite rd_ok by lia. cbn [bind]. rewrite I7.
  split; reflexivity.
Qed.

Lemma used_dec x : (exists i m, nth_error ms i = Some m /\ In x (refs_of m)) \/ (forall m, In m ms -> ~ In x (refs_of m)).
Proof using ms. clear Hne Hwf Hc I.
  destruct (existsb (fun m => existsb (Z.eqb x) (refs_of m)) ms) eqn:E.
  - left. apply existsb_exists in E. destruct E as (m & Hm & E). apply existsb_exists in E.
    destruct E as (y & Hy & Ey). apply Z.eqb_eq in Ey. subst y. apply In_nth_error in Hm. destruct Hm as (i & Ei). eauto.
  - right. intros m Hm Hx.
    assert (H : existsb (fun m => existsb (Z.eqb x) (refs_of m)) ms = true); [|congruence].
    apply existsb_exists. exists m. split; [exact Hm|]. apply existsb_exists. exists x. split; [exact Hx|apply Z.eqb_refl].
Qed.

(** Known references: those of the materials and those of the mesh when the last
    material was given. *)
Definition known (x : Z) : Prop := (exists m, In m ms /\ In x (refs_of m)) \/ In x (mrefs_all r).

Lemma known_range x : known x -> ioff s <= x < ioff s + alen (ilook s).
Proof using I. clear Hne Hwf Hc.
  destruct I as (I1 & I2 & I3 & I4 & I5 & I6 & I7).
  intros [(m & Hm & Hx)|Hx]; [apply (I4 m x Hm Hx)|apply (I5 x Hx)].
Qed.

Definition minus_of (x : Z) : Prop := exists m, In m ms /\ mspl m = MMAT_Split /\ x = mrin m.
Definition plus_of (x : Z) : Prop := exists m, In m ms /\ mspl m = MMAT_Split /\ x = mrex m.

Lemma attrib_known x : known x -> exists a, inv_attrib s x = Ret a /\ 0 <= a <= 3 /\
  (a = MG_MINUS <-> minus_of x) /\ (a = MG_PLUS <-> plus_of x).
Proof using Hwf Hc I. clear Hne.
  intros K. destruct (used_dec x) as [(i & m & Ei & Hx)|N].
  - destruct (index_in i m x Ei Hx) as (_ & E & _). exists (attr m x). split; [exact E|].
    assert (Hm : In m ms) by (apply (nth_error_In _ _ Ei)).
    pose proof (proj1 (Forall_forall _ _) Hwf m Hm) as W. split; [apply attr_range; exact W|].
    assert (U : forall m' , In m' ms -> In x (refs_of m') -> m' = m).
    { intros m' Hm' Hx'. apply In_nth_error in Hm'. destruct Hm' as (j & Ej).
      pose proof (proj1 Hc _ _ _ _ _ Ei Ej Hx Hx'). congruence. }
    pose proof W as (_ & _ & _ & Ws). unfold MMAT_Split, MMAT_NoSplit in Ws.
    assert (R1 : forall m', mspl m' = 1 -> In (mrin m') (refs_of m') /\ In (mrex m') (refs_of m')).
    { intros m' E'. unfold refs_of. rewrite E'. cbn. auto. }
    pose proof (proj2 Hc m Hm) as Hd. unfold MMAT_Split in Hd.
    unfold attr, MG_MINUS, MG_PLUS, minus_of, plus_of, MMAT_Split. split; split.
    + intros Ea. exists m. split; [exact Hm|]. destruct (Z.eqb_spec (mspl m) 0); [lia|].
      destruct (Z.eqb_spec x (mrex m)); [lia|]. destruct (Z.eqb_spec x (mrin m)); [auto with zarith|lia].
    + intros (m' & Hm' & Es & Ex). assert (m' = m) as -> by (apply U; [exact Hm'|rewrite Ex; apply R1; exact Es]).
      destruct (Z.eqb_spec (mspl m) 0); [lia|]. specialize (Hd Es).
      destruct (Z.eqb_spec x (mrex m)); [congruence|]. destruct (Z.eqb_spec x (mrin m)); [reflexivity|contradiction].
    + intros Ea. exists m. split; [exact Hm|]. destruct (Z.eqb_spec (mspl m) 0); [lia|].
      destruct (Z.eqb_spec x (mrex m)); [split; [lia|assumption]|]. destruct (Z.eqb_spec x (mrin m)); lia.
    + intros (m' & Hm' & Es & Ex). assert (m' = m) as -> by (apply U; [exact Hm'|rewrite Ex; apply R1; exact Es]).
      destruct (Z.eqb_spec (mspl m) 0); [lia|]. destruct (Z.eqb_spec x (mrex m)); [reflexivity|contradiction].
  - destruct (index_out x (known_range x K) N) as [_ E]. exists 0. split; [exact E|]. split; [lia|].
    assert (R1 : forall m', mspl m' = 1 -> In (mrin m') (refs_of m') /\ In (mrex m') (refs_of m')).
    { intros m' E'. unfold refs_of. rewrite E'. cbn. auto. }
    unfold MG_MINUS, MG_PLUS. split; split; intros H; try lia;
      destruct H as (m & Hm & Es & ->); exfalso; apply (N m Hm); apply R1; exact Es.
Qed.
End Query.

(** Any table that is given completely by accepted calls, after any earlier use of the
    structure: every reference used by a material is mapped back to that material, a
    material that is not split is mapped to itself, the references of the sides are
    found, other references of the mesh are reported as unknown, and the level-set
    interface is exactly between a negative side and a positive side. *)
Theorem C15_inverse : forall s0 r ms,
  ms <> [] -> Forall wf_mat ms -> compat ms -> (forall x, In x (mrefs_all r) -> ref_ok x) ->
  exists h s, calls (ONmat (len ms) :: feed r ms) s0 = Ret (h, s) /\ Forall (fun x => snd x = 1) h /\
    (forall m x, In m ms -> In x (refs_of m) ->
       get_start_ref s x = Ret (1, mref m) /\
       is_split s x = Ret (if mspl m =? MMAT_Split then (1, mrin m, mrex m) else (0, 0, 0))) /\
    (forall x, In x (mrefs_all r) -> (forall m, In m ms -> ~ In x (refs_of m)) -> get_start_ref s x = Ret (0, 0)) /\
    (forall x y, known r ms x -> known r ms y -> exists v, is_level_set s x y = Ret v /\ (v = 0 \/ v = 1) /\
       (v = 1 <-> (minus_of ms x /\ plus_of ms y) \/ (plus_of ms x /\ minus_of ms y))).
Proof.
  intros s0 r ms Hne Hwf Hc Hr. cbn [calls call].
  assert (Hl : (0 <=? len ms) = true) by (apply Z.leb_le; unfold len; lia).
  destruct (feed_ok r ms Hwf Hc Hr ms [] (snd (set_nmat (len ms) true s0)) eq_refl Hne) as (h & s & E & Hh & I).
  { unfold set_nmat. rewrite Hl. cbn [andb snd]. split; [reflexivity|]. split; [reflexivity|].
    split; [reflexivity|]. intros [|i] m; discriminate. }
  unfold set_nmat in *. rewrite Hl in *. cbn [andb bind snd] in *. rewrite E. cbn [bind].
  eexists _, s. split; [reflexivity|]. split.
  { constructor; [reflexivity|exact Hh]. }
  pose proof (nz r ms s Hne I) as Hnz.
  split; [|split].
  - intros m x Hm Hx. pose proof (proj1 (Forall_forall _ _) Hwf m Hm) as (_ & _ & _ & Ws).
    apply In_nth_error in Hm. destruct Hm as (i & Ei).
    destruct (index_in r ms s Hwf I i m x Ei Hx) as (E1 & E2 & E3).
    unfold get_start_ref, is_split. rewrite Hnz, E1. cbn [bind].
    destruct (Z.eqb_spec (Z.of_nat i) (-1)); [lia|]. cbn [negb c_assert bind]. rewrite E3. cbn [bind].
    split; [reflexivity|]. destruct Ws as [-> | ->]; reflexivity.
  - intros x Hx Hn. destruct (index_out r ms s I x) as [E1 _]; [apply (known_range r ms s I); right; exact Hx|exact Hn|].
    unfold get_start_ref. rewrite Hnz, E1. reflexivity.
  - intros x y Kx Ky.
    destruct (attrib_known r ms s Hwf Hc I x Kx) as (a & Ea & Ra & Ma & Pa).
    destruct (attrib_known r ms s Hwf Hc I y Ky) as (b & Eb & Rb & Mb & Pb).
    unfold is_level_set. rewrite Hnz, Ea, Eb. cbn [bind].
    eexists. split; [reflexivity|]. rewrite <- Ma, <- Mb, <- Pa, <- Pb. unfold MG_MINUS, MG_PLUS.
    destruct (Z.eqb_spec (a + b) (3 + 2)); split; auto; split; intros; try lia.
Qed.
Print Assumptions C15_inverse.

(** Three materials; one side has the reference of its parent, one is not split. *)
Definition case15 : list mat := [mkM 4 1 5 6; mkM 2 0 0 0; mkM 11 1 11 13].

Example C15_case_hyps : case15 <> [] /\ Forall wf_mat case15 /\ compat case15 /\
  (forall x, In x (mrefs_all (mkR [2; 4; 30] [40] [])) -> ref_ok x).
Proof.
  split; [discriminate|]. split; [|split].
  - unfold case15, wf_mat, ref_ok, INTMAX, MMAT_Split, MMAT_NoSplit. repeat constructor; cbn; lia.
  - unfold case15. split.
    + intros [|[|[|i]]] [|[|[|j]]] m m' x Ei Ej Hx Hx'; cbn in Ei, Ej;
        try (destruct i; discriminate); try (destruct j; discriminate); try reflexivity;
        injection Ei as <-; injection Ej as <-; cbn in Hx, Hx'; lia.
    + intros m [<-|[<-|[<-|[]]]]; cbn; intros; try discriminate; lia.
  - unfold ref_ok, INTMAX. cbn. intros x H. lia.
Qed.

Definition state15 : outcome info :=
  '(_, s) <- calls (ONmat 3 :: feed (mkR [2; 4; 30] [40] []) case15) info0 ;; Ret s.

Example C15_case :
  (s <- state15 ;; a <- get_start_ref s 13 ;; b <- get_start_ref s 11 ;; c <- get_start_ref s 30 ;;
   d <- is_level_set s 5 13 ;; e <- is_level_set s 4 13 ;; f <- is_split s 6 ;; Ret (a, b, c, d, e, f)) =
  Ret ((1, 11), (1, 11), (0, 0), 1, 0, (1, 5, 6)).
Proof. vm_compute. reflexivity. Qed.

(** [MMG5_isNotSplit] answers the opposite of its documentation as soon as materials
    are given: 0 for a material that is not split, 1 for one that is. *)
Theorem C15_not_split_refuted : exists ms r s h m m',
  Forall wf_mat ms /\ compat ms /\ calls (ONmat (len ms) :: feed r ms) info0 = Ret (h, s) /\
  In m ms /\ In m' ms /\ mspl m = MMAT_NoSplit /\ mspl m' = MMAT_Split /\
  is_not_split s (mref m) = Ret 0 /\ is_not_split s (mref m') = Ret 1.
Proof.
  eexists case15, (mkR [2; 4; 30] [40] []), _, _, (mkM 2 0 0 0), (mkM 4 1 5 6).
  split; [apply C15_case_hyps|]. split; [apply C15_case_hyps|].
  split; [vm_compute; reflexivity|]. split; [right; left; reflexivity|]. split; [left; reflexivity|].
  repeat split; vm_compute; reflexivity.
Qed.
Print Assumptions C15_not_split_refuted.

(** The span of the lookup array is fixed when the last material is given.  The
    references of elements that are set afterwards may lie outside: the query then
    reads outside of the array instead of reporting an unknown reference. *)
Theorem C15_late_reference_refuted : exists ms r s h x,
  Forall wf_mat ms /\ compat ms /\ ref_ok x /\
  calls (ONmat (len ms) :: feed r ms) info0 = Ret (h, s) /\ get_start_ref s x = Stuck.
Proof.
  eexists case15, (mkR [] [] []), _, _, 30.
  split; [apply C15_case_hyps|]. split; [apply C15_case_hyps|]. split; [unfold ref_ok, INTMAX; lia|].
  split; [vm_compute; reflexivity|]. vm_compute. reflexivity.
Qed.
Print Assumptions C15_late_reference_refuted.

(** ** Splitting and restoring the references of the mesh *)

(** Value of the level-set at the vertex [i] of [t]. *)
Definition val (sol : arr Q) (t : tetra) (i : Z) : Q := aget sol (tv t i).

(** The tetrahedron lies on one side and not in the zero set; its vertices exist. *)
Definition sided (np : Z) (sol : arr Q) (t : tetra) : Prop :=
  (forall i, 0 <= i <= 3 -> 1 <= tv t i <= np) /\
  ((exists i, 0 <= i <= 3 /\ qpos (val sol t i) = true) /\ (forall i, 0 <= i <= 3 -> qneg (val sol t i) = false) \/
   (exists i, 0 <= i <= 3 /\ qneg (val sol t i) = true) /\ (forall i, 0 <= i <= 3 -> qpos (val sol t i) = false)).

Lemma count_v_ok np sol p t : np < alen sol -> (forall i, 0 <= i <= 3 -> 1 <= tv t i <= np) ->
  exists n, count_v sol p t = Ret n /\ 0 <= n <= 4 /\
    ((exists i, 0 <= i <= 3 /\ p (val sol t i) = true) -> 0 < n) /\
    ((forall i, 0 <= i <= 3 -> p (val sol t i) = false) -> n = 0).
Proof.
  intros Hs Hv. unfold count_v.
  destruct (@for_range_inv Z (fun k n => 0 <= n <= k /\
      ((exists i, 0 <= i < k /\ p (val sol t i) = true) -> 0 < n) /\
      ((forall i, 0 <= i < k -> p (val sol t i) = false) -> n = 0))
    (fun i n => v <- rd sol (tv t i) ;; Ret (if p v then n + 1 else n)) 0 3 0) as (n & E & N1 & N2 & N3).
  - lia.
  - split; [lia|]. split; [intros (i & Hi & _); lia|reflexivity].
  - intros i n Hi (N1 & N2 & N3). specialize (Hv i Hi). rewrite rd_ok by lia. cbn [bind].
    eexists. split; [reflexivity|]. fold (val sol t i). destruct (p (val sol t i)) eqn:Ep.
    + split; [lia|]. split; [lia|]. intros H. rewrite H in Ep by lia. discriminate.
    + split; [lia|]. split.
      * intros (j & Hj & Pj). apply N2. exists j. split; [|exact Pj]. destruct (Z.eq_dec j i) as [->|]; [congruence|lia].
      * intros H. apply N3. intros j Hj. apply H. lia.
  - exists n. split; [exact E|]. split; [lia|]. split.
    + intros (i & Hi & P). apply N2. exists i. split; [lia|exact P].
    + intros H. apply N3. intros i Hi. apply H. lia.
Qed.

(** The tetrahedron has one positive vertex. *)
Definition positive (sol : arr Q) (t : tetra) : bool :=
  qpos (val sol t 0) || qpos (val sol t 1) || qpos (val sol t 2) || qpos (val sol t 3).

Lemma positive_true sol t i : 0 <= i <= 3 -> qpos (val sol t i) = true -> positive sol t = true.
Proof.
  intros Hi Hp. unfold positive. assert (i = 0 \/ i = 1 \/ i = 2 \/ i = 3) as [-> | [-> | [-> | ->]]] by lia;
    rewrite Hp; rewrite ?orb_true_r; reflexivity.
Qed.
Lemma positive_false sol t : (forall i, 0 <= i <= 3 -> qpos (val sol t i) = false) -> positive sol t = false.
Proof. intros H. unfold positive. rewrite !H by lia. reflexivity. Qed.

(** Reference expected for a tetrahedron of material [m]. *)
Definition side_ref (sol : arr Q) (m : mat) (t : tetra) : Z :=
  if mspl m =? MMAT_Split then (if positive sol t then mrex m else mrin m) else tref t.

Lemma set_tref_same t x : x = tref t -> set_tref t x = t.
Proof. intros ->. destruct t. reflexivity. Qed.

Lemma tv_set_tref t x i : tv (set_tref t x) i = tv t i.
Proof. reflexivity. Qed.

Section Sides.
Variables (s : info) (ms : list mat) (sol : arr Q) (np ne : Z) (a : arr tetra).
Hypothesis Hsplit : forall m x, In m ms -> In x (refs_of m) ->
  is_split s x = Ret (if mspl m =? MMAT_Split then (1, mrin m, mrex m) else (0, 0, 0)).
Hypothesis Hstart : forall m x, In m ms -> In x (refs_of m) -> get_start_ref s x = Ret (1, mref m).
Hypothesis Hsol : np < alen sol.
Hypothesis Hne : 0 <= ne < alen a.
Hypothesis Ht : forall k, 1 <= k <= ne -> eok (aget a k) = true ->
  sided np sol (aget a k) /\ exists m, In m ms /\ tref (aget a k) = mref m.

Definition split_spec (a' : arr tetra) (hi : Z) : Prop :=
  alen a' = alen a /\
  (forall k, ~ 1 <= k < hi -> aget a' k = aget a k) /\
  (forall k, 1 <= k < hi -> eok (aget a k) = false -> aget a' k = aget a k) /\
  (forall k m, 1 <= k < hi -> eok (aget a k) = true -> In m ms -> tref (aget a k) = mref m ->
     aget a' k = set_tref (aget a k) (side_ref sol m (aget a k))).

Lemma setref_ok : exists a', setref_ls s sol ne a = Ret a' /\ split_spec a' (ne + 1).
Proof using Hsplit Hsol Hne Ht.
  clear Hstart. unfold setref_ls. apply (for_range_inv (fun hi a' => split_spec a' hi)).
  - lia.
  - split; [reflexivity|]. split; [auto|]. split; intros; lia.
  - intros k a' Hk (S1 & S2 & S3 & S4). rewrite rd_ok by lia. cbn [bind]. rewrite (S2 k) by lia.
    destruct (eok (aget a k)) eqn:Ek; cbn [negb].
    + destruct (Ht k Hk Ek) as ((V & Sd) & (m & Hm & Em)).
      destruct (count_v_ok np sol qpos (aget a k) Hsol V) as (np' & Ep & P1 & P2 & P3).
      destruct (count_v_ok np sol qneg (aget a k) Hsol V) as (nm' & En & N1 & N2 & N3).
      rewrite Ep, En. cbn [bind].
      assert (Hx : In (tref (aget a k)) (refs_of m)) by (rewrite Em; apply in_ref).
      rewrite (Hsplit m _ Hm Hx).
      assert (Done : forall x, (forall m', In m' ms -> tref (aget a k) = mref m' -> x = side_ref sol m' (aget a k)) ->
        exists s', wr a' k (set_tref (aget a k) x) = Ret s' /\ split_spec s' (k + 1)).
      { intros x Hxx. rewrite wr_ok by lia. eexists. split; [reflexivity|].
        split; [exact S1|]. cbn [aget]. split; [|split].
        - intros j Hj. rewrite upd_other by lia. apply S2. lia.
        - intros j Hj Ej. unfold upd. destruct (Z.eqb_spec j k) as [->|]; [congruence|]. apply S3; [lia|exact Ej].
        - intros j m' Hj Ej Hm' Er. unfold upd. destruct (Z.eqb_spec j k) as [->|].
          + f_equal. apply Hxx; assumption.
          + apply S4; [lia|exact Ej|exact Hm'|exact Er]. }
      assert (Uniq : forall m', In m' ms -> tref (aget a k) = mref m' ->
                (mspl m' =? MMAT_Split) = (mspl m =? MMAT_Split) /\
                (mspl m =? MMAT_Split = true -> mrin m' = mrin m /\ mrex m' = mrex m)).
      { intros m' Hm' Er. pose proof (Hsplit m _ Hm Hx) as E1.
        assert (Hx' : In (tref (aget a k)) (refs_of m')) by (rewrite Er; apply in_ref).
        pose proof (Hsplit m' _ Hm' Hx') as E2. rewrite E1 in E2.
        destruct (mspl m =? MMAT_Split), (mspl m' =? MMAT_Split); try discriminate; split; auto; intros; try discriminate.
        injection E2 as -> ->. auto. }
      assert (Keep : (mspl m =? MMAT_Split) = false -> exists s', Ret a' = Ret s' /\ split_spec s' (k + 1)).
      { intros Es. exists a'. split; [reflexivity|]. split; [exact S1|]. split; [|split].
        - intros j Hj. apply S2. lia.
        - intros j Hj Ej. destruct (Z.eq_dec j k) as [->|]; [congruence|]. apply S3; [lia|exact Ej].
        - intros j m' Hj Ej Hm' Er. destruct (Z.eq_dec j k) as [->|].
          + rewrite (S2 k) by lia. unfold side_ref. rewrite (proj1 (Uniq m' Hm' Er)), Es.
            symmetry. apply set_tref_same. reflexivity.
          + apply S4; [lia|exact Ej|exact Hm'|exact Er]. }
      destruct Sd as [[(i & Hi & Pi) Nn]|[(i & Hi & Ni) Pn]].
      * assert (0 < np') by (apply P2; eauto). assert (nm' = 0) by (apply N3; exact Nn).
        replace (4 - np' - nm' <? 4) with true by lia. cbn [c_assert bind].
        destruct (mspl m =? MMAT_Split) eqn:Es; cbn [bind].
        -- replace (np' =? 0) with false by lia. replace (nm' =? 0) with true by lia. cbn [negb Z.eqb c_assert bind].
           apply Done. intros m' Hm' Er. destruct (Uniq m' Hm' Er) as [U1 U2]. destruct (U2 eq_refl) as [U3 U4].
           unfold side_ref. rewrite U1, (positive_true sol (aget a k) i Hi Pi). congruence.
        -- replace (np' =? 0) with false by lia. cbn [negb Z.eqb]. apply Keep. reflexivity.
      * assert (0 < nm') by (apply N2; eauto). assert (np' = 0) by (apply P3; exact Pn).
        replace (4 - np' - nm' <? 4) with true by lia. cbn [c_assert bind].
        destruct (mspl m =? MMAT_Split) eqn:Es; cbn [bind].
        -- replace (np' =? 0) with true by lia. replace (nm' =? 0) with false by lia. cbn [negb Z.eqb c_assert bind].
           apply Done. intros m' Hm' Er. destruct (Uniq m' Hm' Er) as [U1 U2]. destruct (U2 eq_refl) as [U3 U4].
           unfold side_ref. rewrite U1, (positive_false sol (aget a k) Pn). congruence.
        -- replace (np' =? 0) with true by lia. cbn [negb Z.eqb]. apply Keep. reflexivity.
    + exists a'. split; [reflexivity|]. split; [exact S1|]. split; [|split].
      * intros j Hj. apply S2. lia.
      * intros j Hj Ej. destruct (Z.eq_dec j k) as [->|]; [apply S2; lia|]. apply S3; [lia|exact Ej].
      * intros j m' Hj Ej Hm' Er. destruct (Z.eq_dec j k) as [->|]; [congruence|]. apply S4; [lia|exact Ej|exact Hm'|exact Er].
Qed.

Lemma reset_tets_ok a' : split_spec a' (ne + 1) -> (forall m, In m ms -> mspl m = MMAT_Split -> In (mrin m) (refs_of m) /\ In (mrex m) (refs_of m)) ->
  exists a'', reset_tets s ne a' = Ret (1, a'') /\ alen a'' = alen a /\ forall k, aget a'' k = aget a k.
Proof using Hstart Hne Ht.
  clear Hsplit Hsol. intros (S1 & S2 & S3 & S4) Hin. unfold reset_tets.
  destruct (@for_range_inv (Z * arr tetra) (fun k ra => fst ra = 1 /\ alen (snd ra) = alen a /\
       (forall j, 1 <= j < k -> aget (snd ra) j = aget a j) /\
       (forall j, ~ 1 <= j < k -> aget (snd ra) j = aget a' j))
    (fun k (ra : Z * arr tetra) => let '(res, a) := ra in
      if res =? 0 then Ret (res, a) else pt <- rd a k ;; if negb (eok pt) then Ret (res, a)
      else ' (ier, ref) <- get_start_ref s (tref pt) ;; if ier =? 0 then Ret (0, a)
        else a <- wr a k (set_tref pt ref) ;; Ret (1, a)) 1 ne (1, a')) as ([v a''] & E & R0 & R1 & R2 & R3).
  - lia.
  - cbn. split; [reflexivity|]. split; [exact S1|]. split; [intros; lia|auto].
  - intros k [v b] Hk (R0 & R1 & R2 & R3). cbn [fst snd] in *. subst v. cbn [Z.eqb].
    rewrite rd_ok by lia. cbn [bind]. rewrite (R3 k) by lia.
    destruct (eok (aget a k)) eqn:Ek.
    + destruct (Ht k Hk Ek) as (_ & m & Hm & Em).
      pose proof (S4 k m ltac:(lia) Ek Hm Em) as Q. rewrite Q.
      change (eok (set_tref (aget a k) (side_ref sol m (aget a k)))) with (eok (aget a k)). rewrite Ek. cbn [negb tref set_tref].
      rewrite (Hstart m); [|exact Hm|].
      * cbn [bind Z.eqb]. rewrite wr_ok by lia. cbn [bind]. eexists. split; [reflexivity|].
        cbn [fst snd alen aget]. split; [reflexivity|]. split; [exact R1|]. split.
        -- intros j Hj. unfold upd. destruct (Z.eqb_spec j k) as [->|]; [|apply R2; lia].
           rewrite <- Em. destruct (aget a k). reflexivity.
        -- intros j Hj. rewrite upd_other by lia. apply R3. lia.
      * unfold side_ref. destruct (Z.eqb_spec (mspl m) MMAT_Split) as [Es|Es]; [|rewrite Em; apply in_ref].
        destruct (Hin m Hm Es). destruct (positive sol (aget a k)); assumption.
    + rewrite (S3 k) by (lia || exact Ek). rewrite Ek. cbn [negb]. eexists. split; [reflexivity|].
      cbn [fst snd]. split; [reflexivity|]. split; [exact R1|]. split.
      * intros j Hj. destruct (Z.eq_dec j k) as [->|]; [|apply R2; lia]. rewrite R3 by lia. apply S3; [lia|exact Ek].
      * intros j Hj. apply R3. lia.
  - cbn [fst snd] in *. subst v. exists a''. split; [exact E|]. split; [exact R1|].
    intros k. destruct (Z_le_dec 1 k), (Z_lt_dec k (ne + 1)); try (apply R2; lia);
      rewrite R3 by lia; apply S2; lia.
Qed.
End Sides.

Lemma reset_pts_ok isoref np ne a pts : np < alen pts -> 0 <= ne < alen a ->
  (forall k i, 1 <= k <= ne -> eok (aget a k) = true -> 0 <= i <= 3 -> 1 <= tv (aget a k) i <= np) ->
  exists pts', reset_pts isoref ne a pts = Ret pts' /\ alen pts' = alen pts.
Proof.
  intros Hp Hn Hv. unfold reset_pts. apply (for_range_inv (fun _ b => alen b = alen pts)); [lia|reflexivity|].
  intros k b Hk Eb. rewrite rd_ok by lia. cbn [bind]. destruct (eok (aget a k)) eqn:Ek; cbn [negb]; [|eauto].
  apply (for_range_inv (fun _ b => alen b = alen pts)); [lia|exact Eb|].
  intros i b' Hi Eb'. specialize (Hv k i Hk Ek Hi). rewrite rd_ok by lia. cbn [bind].
  destruct (_ =? isoref); [rewrite wr_ok by lia|]; eexists; (split; [reflexivity|]); [exact Eb'|exact Eb'].
Qed.

(** The references set on the sides of the level-set are those of the table, and
    resetting the mesh gives back the references it had before, on every element. *)
Theorem C15_sides_and_back : forall s0 r ms h s sol np ne a pts isoref,
  ms <> [] -> Forall wf_mat ms -> compat ms -> (forall x, In x (mrefs_all r) -> ref_ok x) ->
  calls (ONmat (len ms) :: feed r ms) s0 = Ret (h, s) ->
  np < alen sol -> np < alen pts -> 0 <= ne < alen a ->
  (forall k, 1 <= k <= ne -> eok (aget a k) = true ->
     sided np sol (aget a k) /\ exists m, In m ms /\ tref (aget a k) = mref m) ->
  exists a', setref_ls s sol ne a = Ret a' /\
    (forall k m, 1 <= k <= ne -> eok (aget a k) = true -> In m ms -> tref (aget a k) = mref m ->
       aget a' k = set_tref (aget a k)
         (if mspl m =? MMAT_Split then (if positive sol (aget a k) then mrex m else mrin m) else mref m)) /\
    exists a'' pts', reset_ls s isoref ne a' pts = Ret (1, a'', pts') /\ forall k, aget a'' k = aget a k.
Proof.
  intros s0 r ms h s sol np ne a pts isoref Hm Hwf Hc Hr E Hsol Hpts Hne Ht.
  destruct (C15_inverse s0 r ms Hm Hwf Hc Hr) as (h' & s' & E' & _ & Q & _). rewrite E in E'. injection E' as <- <-.
  destruct (setref_ok s ms sol np ne a) as (a' & Ea & Sp); try assumption.
  { intros m x Hmm Hx. apply (Q m x Hmm Hx). }
  exists a'. split; [exact Ea|]. split.
  { intros k m Hk Ek Hmm Er. destruct Sp as (_ & _ & _ & S4). rewrite (S4 k m) by (lia || assumption).
    unfold side_ref. rewrite <- Er. reflexivity. }
  destruct (reset_tets_ok s ms sol np ne a) with (a' := a') as (a'' & Er & L & G); try assumption.
  { intros m x Hmm Hx. apply (Q m x Hmm Hx). }
  { intros m Hmm Es. unfold refs_of. rewrite Es. cbn. auto. }
  destruct (reset_pts_ok isoref np ne a' pts) as (pts' & Ep & _); [exact Hpts| |  |].
  { destruct Sp as (S1 & _). lia. }
  { intros k i Hk Ek Hi. destruct Sp as (S1 & S2 & S3 & S4).
    destruct (eok (aget a k)) eqn:Ek0.
    - destruct (Ht k Hk Ek0) as ((V & _) & m & Hmm & Er'). rewrite (S4 k m) by (lia || assumption).
      rewrite tv_set_tref. apply V. exact Hi.
    - rewrite (S3 k) in Ek by (lia || assumption). congruence. }
  exists a'', pts'. split; [|exact G]. unfold reset_ls. rewrite Ep. cbn [bind]. rewrite Er. reflexivity.
Qed.
Print Assumptions C15_sides_and_back.

Example C15_sides_case :
  let a := aof tetra0 [mkT 1 2 3 4 4 0 0 0; mkT 1 2 3 5 4 0 0 0; tetra0; mkT 2 3 4 6 2 0 0 0; mkT 1 3 5 7 11 0 0 0] in
  let sol := aof 0%Q [0; 0; 0; 1; -1; 2; -3]%Q in
  let pts := aof point0 [point0; point0; point0; point0; mkP 0 10 0 0 0 4; point0; point0] in
  (s <- state15 ;; a' <- setref_ls s sol 5 a ;; '(v, a'', _) <- reset_ls s 10 5 a' pts ;;
   Ret (map (fun k => tref (aget a' k)) [1;2;3;4;5], v, map (fun k => tref (aget a'' k)) [1;2;3;4;5])) =
  Ret ([6; 5; 0; 2; 11], 1, [4; 4; 0; 2; 11]).
Proof. vm_compute. reflexivity. Qed.

Lemma reset_unknown s ne (a : arr tetra) k0 (pool : Z -> Prop) :
  0 <= ne < alen a -> 1 <= k0 <= ne -> eok (aget a k0) = true ->
  get_start_ref s (tref (aget a k0)) = Ret (0, 0) ->
  (forall x, pool x -> exists v, get_start_ref s x = Ret v) ->
  (forall k, 1 <= k <= ne -> eok (aget a k) = true -> pool (tref (aget a k))) ->
  exists a', reset_tets s ne a = Ret (0, a').
Proof.
  intros Hne Hk0 Ek0 Eu Hp Ha. unfold reset_tets.
  match goal with |- context [for_range 1 ne ?f _] =>
    destruct (@for_range_inv (Z * arr tetra) (fun k ra => alen (snd ra) = alen a /\
       (fst ra = 0 \/ k <= k0 /\ fst ra = 1 /\ forall j, ~ 1 <= j < k -> aget (snd ra) j = aget a j))
     f 1 ne (1, a)) as ([v a'] & E & L & R) end.
  - lia.
  - cbn. split; [reflexivity|]. right. split; [lia|]. auto.
  - intros k [v b] Hk (L & R). cbn [fst snd] in *. destruct R as [-> | (R0 & -> & R2)].
    + cbn [Z.eqb]. eexists. split; [reflexivity|]. cbn. auto.
    + cbn [Z.eqb]. rewrite rd_ok by lia. cbn [bind]. rewrite (R2 k) by lia.
      destruct (eok (aget a k)) eqn:Ek; cbn [negb].
      * destruct (Hp _ (Ha k Hk Ek)) as ([ier ref] & Eg). rewrite Eg. cbn [bind].
        destruct (Z.eqb_spec ier 0) as [|Ni]; [eexists; split; [reflexivity|]; cbn; auto|].
        rewrite wr_ok by lia. cbn [bind]. eexists. split; [reflexivity|]. cbn [fst snd alen aget].
        split; [exact L|]. right. split; [|split; [reflexivity|]].
        -- destruct (Z.eq_dec k k0) as [->|]; [congruence|lia].
        -- intros j Hj. rewrite upd_other by lia. apply R2. lia.
      * eexists. split; [reflexivity|]. cbn [fst snd]. split; [exact L|]. right.
        split; [|split; [reflexivity|]].
        -- destruct (Z.eq_dec k k0) as [->|]; [congruence|lia].
        -- intros j Hj. apply R2. lia.
  - cbn [fst snd] in *. destruct R as [-> | (R & _)]; [|lia]. exists a'. exact E.
Qed.

(** A mesh with a reference that no material uses is refused. *)
Theorem C15_unknown_reported : forall s0 r ms h s np ne a pts isoref k0,
  ms <> [] -> Forall wf_mat ms -> compat ms -> (forall x, In x (mrefs_all r) -> ref_ok x) ->
  calls (ONmat (len ms) :: feed r ms) s0 = Ret (h, s) ->
  np < alen pts -> 0 <= ne < alen a ->
  (forall k, 1 <= k <= ne -> eok (aget a k) = true ->
     In (tref (aget a k)) (rtet r) /\ forall i, 0 <= i <= 3 -> 1 <= tv (aget a k) i <= np) ->
  1 <= k0 <= ne -> eok (aget a k0) = true -> (forall m, In m ms -> ~ In (tref (aget a k0)) (refs_of m)) ->
  exists a' pts', reset_ls s isoref ne a pts = Ret (0, a', pts').
Proof.
  intros s0 r ms h s np ne a pts isoref k0 Hm Hwf Hc Hr E Hpts Hne Ht Hk0 Ek0 Hu.
  destruct (C15_inverse s0 r ms Hm Hwf Hc Hr) as (h' & s' & E' & _ & Q & Q' & _). rewrite E in E'. injection E' as <- <-.
  assert (Hin : forall x, In x (rtet r) -> In x (mrefs_all r)) by (intros x Hx; apply in_or_app; left; exact Hx).
  destruct (reset_pts_ok isoref np ne a pts) as (pts' & Ep & _); [exact Hpts|exact Hne| |].
  { intros k i Hk Ek. apply (proj2 (Ht k Hk Ek)). }
  destruct (reset_unknown s ne a k0 (fun x => In x (rtet r))) as (a' & Ea); try assumption.
  - apply Q'; [apply Hin; apply (Ht k0 Hk0 Ek0)|exact Hu].
  - intros x Hx. destruct (used_dec ms x) as [(i & m & Ei & Hxm)|N].
    + eexists. apply (Q m x (nth_error_In _ _ Ei) Hxm).
    + eexists. apply Q'; [apply Hin; exact Hx|exact N].
  - intros k Hk Ek. apply (Ht k Hk Ek).
  - exists a', pts'. unfold reset_ls. rewrite Ep. cbn [bind]. rewrite Ea. reflexivity.
Qed.
Print Assumptions C15_unknown_reported.

Example C15_unknown_case :
  let a := aof tetra0 [mkT 1 2 3 4 4 0 0 0; mkT 1 2 3 5 30 0 0 0; mkT 2 3 4 5 2 0 0 0] in
  (s <- state15 ;; '(v, _, _) <- reset_ls s 10 3 a (acalloc 6 point0) ;; Ret v) = Ret 0.
Proof. vm_compute. reflexivity. Qed.
