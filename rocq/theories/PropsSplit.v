(** Splitting patterns of tetrahedra: properties C17, C38, C39, C40. *)
From Coq Require Import Reals ZArith List Lia Lra Bool Arith Permutation.
From Verif Require Import CBase SplitModel SplitProofs SplitConf SplitVol.
From Verif Require KerModel PropsKer.
Import ListNotations.
Open Scope nat_scope.

(** ** Shared by the proofs *)

Lemma lift junk vx p subs :
  wf p -> length vx = 6 -> length junk = 4 -> NoDup (sv p) -> split junk vx p = Ret subs ->
  exists L, ssplit (posl vx) (ltab (sv p)) = Ret L /\ subs = map (esub vx p junk) L.
Proof.
  intros W Hx Hj N E. rewrite split_sym in E by assumption.
  destruct (ssplit (posl vx) (ltab (sv p))) as [L|]; [|discriminate]. injection E as <-. eauto.
Qed.

Lemma sv_esub vx p junk s : sv (esub vx p junk s) = map (ev (sv p) vx) (sv s).
Proof. reflexivity. Qed.
Lemma svs_esub vx p junk L : map sv (map (esub vx p junk) L) = map (map (ev (sv p) vx)) (map sv L).
Proof. rewrite !map_map. apply map_ext. reflexivity. Qed.

Lemma forall_shape vx v L :
  length vx = 6 -> length v = 4 -> NoDup v -> ssplit (posl vx) (ltab v) = Ret L ->
  Forall (fun s => length s = 4 /\ Forall (fun l => valid (posl vx) l = true) s) (map sv L).
Proof.
  intros Hx Hv N E. apply Forall_forall. intros s Hs. apply in_map_iff in Hs. destruct Hs as [s0 [<- Hs]].
  destruct (shape_of vx v L s0 Hx Hv N E Hs) as (H1 & H2 & _). auto.
Qed.

Lemma on_faces_lab v vx f t :
  length v = 4 -> length vx = 6 -> fresh v vx -> Forall (fun l => valid (posl vx) l = true) t ->
  forallb (on_face v vx f) (map (ev v vx) t) = forallb (lface f) t.
Proof.
  intros Hv Hx F Ht. apply forallb_map_ext. eapply Forall_impl; [|exact Ht].
  intros l Hl. apply on_face_lab; assumption.
Qed.

(** ** C17: the splitting tiles the parent *)

(** Whatever the marked edges and the vertex numbers, splitting succeeds.  The
    volumes of the created tetrahedra add up to the volume of the parent and each
    is a positive multiple of it, for all coordinates of the vertices and all
    positions of the new vertices strictly inside their edges. *)
Theorem C17_volumes : forall junk vx p (c : Z -> KerModel.vec3) (t : nat -> R),
  wf p -> length vx = 6 -> length junk = 4 -> NoDup (sv p) ->
  (forall e, e < 6 -> (0 < nth e vx 0)%Z ->
     (0 < t e < 1)%R /\
     c (nth e vx 0%Z) = lerp (t e) (c (nth (fst (iare e)) (sv p) 0%Z)) (c (nth (snd (iare e)) (sv p) 0%Z))) ->
  exists subs, split junk vx p = Ret subs /\
    sumR (map (fun s => orvol c (sv s)) subs) = orvol c (sv p) /\
    forall s, In s subs -> exists k, (0 < k)%R /\ orvol c (sv s) = (k * orvol c (sv p))%R.
Proof.
  intros junk vx p c t W Hx Hj N Hc.
  assert (Hv : length (sv p) = 4) by (destruct W; assumption).
  destruct (split_total vx (sv p) Hx Hv N) as [L EL].
  exists (map (esub vx p junk) L). rewrite split_sym, EL by assumption. split; [reflexivity|].
  set (t' := fun e => if (0 <? nth e vx 0)%Z then t e else (/ 2)%R).
  assert (Ht' : forall k, k < 6 -> (0 < t' k < 1)%R).
  { intros k Hk. unfold t'. destruct (Z.ltb_spec 0 (nth k vx 0)%Z); [apply Hc; assumption | lra]. }
  pose proof (all_cases_ok _ vx (sv p) vol_all Hx Hv N) as CV.
  destruct (vol_sym _ _ _ CV EL) as [S1 [S2 S3]].
  set (P i := c (nth i (sv p) 0%Z)).
  assert (FV : forall i, i < 4 -> P i = inframe (P 0) (P 1) (P 2) (P 3) (vtx i)).
  { intros i Hi. do 4 (destruct i as [|i]; [
      unfold inframe; cbn [vtx KerModel.vx KerModel.vy KerModel.vz];
      match goal with |- ?Q = _ => destruct Q as [q1 q2 q3] end; cbn [KerModel.vx KerModel.vy KerModel.vz]; f_equal; ring|]). lia. }
  assert (FR : forall l, valid (posl vx) l = true -> c (ev (sv p) vx l) = inframe (P 0) (P 1) (P 2) (P 3) (lpos t' l)).
  { intros l Vl. apply valid_cases in Vl. unfold ev, lpos. destruct (Nat.ltb_spec l 4) as [Hl|Hl].
    - apply FV. exact Hl.
    - destruct Vl as [|[Vl Vp]]; [lia|]. destruct (Hc (l - 4) ltac:(lia) Vp) as [_ E]. rewrite E.
      rewrite inframe_lerp. pose proof (iare_lt (l - 4) ltac:(lia)) as [Ha Hb].
      rewrite <- !FV by assumption. unfold t', P. apply Z.ltb_lt in Vp. rewrite Vp. reflexivity. }
  assert (OV : forall s, In s L -> orvol c (sv (esub vx p junk s)) = (rvol t' (sv s) * orvol c (sv p))%R).
  { intros s Hs. destruct (shape_of vx (sv p) L s Hx Hv N EL Hs) as (H4 & HV & _).
    rewrite sv_esub. apply len4 in H4. destruct H4 as (l0 & l1 & l2 & l3 & El). rewrite El in *.
    inversion HV as [|? ? V0 HV1]; subst. inversion HV1 as [|? ? V1 HV2]; subst.
    inversion HV2 as [|? ? V2 HV3]; subst. inversion HV3 as [|? ? V3 HV4]; subst.
    unfold orvol, rvol. cbn [map nth]. rewrite !FR by assumption. apply det4pt_frame. }
  split.
  - rewrite map_map. etransitivity; [|etransitivity; [apply f_equal2 with (f := Rmult); [exact (S1 t') | reflexivity] | apply Rmult_1_l]].
    assert (K : forall M, incl M L -> sumR (map (fun x => orvol c (sv (esub vx p junk x))) M) =
                          (sumR (map (fun s => rvol t' (sv s)) M) * orvol c (sv p))%R).
    { induction M as [|s M IH]; intros I; cbn [map sumR fold_right]; [ring|].
      rewrite OV by (apply I; left; reflexivity).
      change (fold_right Rplus 0%R (map (fun x => orvol c (sv (esub vx p junk x))) M)) with
        (sumR (map (fun x => orvol c (sv (esub vx p junk x))) M)).
      change (fold_right Rplus 0%R (map (fun s0 => rvol t' (sv s0)) M)) with (sumR (map (fun s0 => rvol t' (sv s0)) M)).
      rewrite IH by (intros y Hy; apply I; right; exact Hy). ring. }
    apply K. intros x Hx'. exact Hx'.
  - intros s Hs. apply in_map_iff in Hs. destruct Hs as [s0 [<- Hs]].
    exists (rvol t' (sv s0)). split; [apply S2; [exact Hs | exact Ht'] | apply OV; exact Hs].
Qed.

(** The triangles that the created tetrahedra induce on a face are a function of
    that face alone: its three vertices and the new vertices of its edges. *)
Theorem C17_face_triangles : forall junk vx p subs f,
  wf p -> length vx = 6 -> length junk = 4 -> fresh (sv p) vx -> f < 4 ->
  split junk vx p = Ret subs ->
  same_tris (filter (forallb (on_face (sv p) vx f)) (all_faces 0%Z (map sv subs)))
            (face_tris (fdata (sv p) vx f)).
Proof.
  intros junk vx p subs f W Hx Hj F Hf E.
  pose proof (fresh_nodup _ _ F) as N. assert (Hv : length (sv p) = 4) by (destruct W; assumption).
  destruct (lift _ _ _ _ W Hx Hj N E) as [L [EL ->]].
  pose proof (forall_shape vx (sv p) L Hx Hv N EL) as SH.
  rewrite svs_esub. rewrite (all_faces_map _ _ _ 10 0%Z).
  2: { eapply Forall_impl; [|exact SH]. intros ? [? _]; assumption. }
  pose proof (all_cases_ok _ vx (sv p) conf_all Hx Hv N) as C. unfold chk_conf in C. rewrite EL in C.
  cbn [on_ret] in C. rewrite forallb_forall in C. specialize (C f (proj2 (l4_in f) Hf)). cbv beta in C.
  apply sameb_ok in C. apply (same_map (ev (sv p) vx)) in C.
  rewrite (filter_map_ext _ _ _ _ (forallb (lface f))).
  2: { eapply Forall_impl; [|apply (faces_valid vx); exact SH]. intros t Ht. apply on_faces_lab; assumption. }
  eapply same_trans; [exact C|].
  match goal with |- same_tris ?A ?B => replace B with A; [apply same_refl|] end.
  unfold face_tris. rewrite map_map.
  assert (Q : forall l, l < 6 -> ev (sv p) vx (flab f l) = fval (fdata (sv p) vx f) l).
  { intros l Hl. clear - Hl Hf. unfold flab.
    do 4 (destruct f as [|f]; [do 6 (destruct l as [|l]; [reflexivity|]); lia|]). lia. }
  assert (FL : forall l, l < 3 -> flab f l < 4).
  { intros l Hl. clear - Hl Hf. do 4 (destruct f as [|f]; [do 3 (destruct l as [|l]; [cbn; lia|]); lia|]). lia. }
  assert (LT : forall a b, a < 3 -> b < 3 -> ltt (ltab (sv p)) (flab f a) (flab f b) =
               (fval (fdata (sv p) vx f) a <? fval (fdata (sv p) vx f) b)%Z).
  { intros a b Ha Hb. rewrite ltab_nth by (rewrite Hv; apply FL; assumption).
    rewrite <- !Q by lia. rewrite !ev_vert by (apply FL; assumption). reflexivity. }
  etransitivity; [apply map_ext; intros t; apply map_map|].
  match goal with |- map _ (tri_spec ?m ?l) = map _ (tri_spec ?m' ?l') => replace (tri_spec m' l') with (tri_spec m l) end.
  - apply (tris_ext (fun x => ev (sv p) vx (flab f x))); [exact Q | apply tri_spec_lt].
  - transitivity (tri_spec (map (fun i => nth (eopp f i) (posl vx) false) [0; 1; 2])
        (fun a b => (fval (fdata (sv p) vx f) a <? fval (fdata (sv p) vx f) b)%Z)).
    + apply tri_spec_ext; apply LT; lia.
    + f_equal. unfold fdata. rewrite map_map. apply map_ext. intros i. cbn [snd]. apply nth_posl.
Qed.

(** Two tetrahedra that share a face, with the same new vertices on its edges,
    are cut into tetrahedra that induce the same triangles on it. *)
Theorem C17_conform : forall junk vx p subs f junk' vx' p' subs' f',
  wf p -> length vx = 6 -> length junk = 4 -> fresh (sv p) vx -> f < 4 ->
  wf p' -> length vx' = 6 -> length junk' = 4 -> fresh (sv p') vx' -> f' < 4 ->
  Permutation (fdata (sv p) vx f) (fdata (sv p') vx' f') ->
  split junk vx p = Ret subs -> split junk' vx' p' = Ret subs' ->
  same_tris (filter (forallb (on_face (sv p) vx f)) (all_faces 0%Z (map sv subs)))
            (filter (forallb (on_face (sv p') vx' f')) (all_faces 0%Z (map sv subs'))).
Proof.
  intros junk vx p subs f junk' vx' p' subs' f' W Hx Hj F Hf W' Hx' Hj' F' Hf' P E E'.
  eapply same_trans; [apply C17_face_triangles with (junk := junk); assumption|].
  eapply same_trans; [|apply same_sym; apply C17_face_triangles with (junk := junk'); assumption].
  apply face_tris_perm; [reflexivity | | exact P].
  pose proof (fresh_nodup _ _ F) as N. assert (Hv : length (sv p) = 4) by (destruct W; assumption).
  clear - N Hv Hf. apply len4 in Hv. destruct Hv as (a & b & c & d & Ev). rewrite Ev in *.
  inversion N as [|? ? N1 N2]; subst. inversion N2 as [|? ? N3 N4]; subst. inversion N4 as [|? ? N5 N6]; subst.
  cbn [In] in *.
  do 4 (destruct f as [|f]; [cbn; repeat constructor; cbn [In]; intuition congruence|]). lia.
Qed.

(** Every face of a created tetrahedron is on one face of the parent and belongs
    to no other created tetrahedron, or is inside and belongs to exactly one other. *)
Theorem C17_inner_faces : forall junk vx p subs F i,
  wf p -> length vx = 6 -> length junk = 4 -> fresh (sv p) vx ->
  split junk vx p = Ret subs -> F = all_faces 0%Z (map sv subs) -> i < length F ->
  ((exists f, f < 4 /\ forallb (on_face (sv p) vx f) (nth i F []) = true) /\
   forall j, j < length F -> Permutation (nth i F []) (nth j F []) -> j = i) \/
  ((forall f, f < 4 -> forallb (on_face (sv p) vx f) (nth i F []) = false) /\
   exists j, j < length F /\ j <> i /\ Permutation (nth i F []) (nth j F []) /\
   forall k, k < length F -> Permutation (nth i F []) (nth k F []) -> k = i \/ k = j).
Proof.
  intros junk vx p subs F i W Hx Hj Fr E -> Hi.
  pose proof (fresh_nodup _ _ Fr) as N. assert (Hv : length (sv p) = 4) by (destruct W; assumption).
  destruct (lift _ _ _ _ W Hx Hj N E) as [L [EL ->]].
  pose proof (forall_shape vx (sv p) L Hx Hv N EL) as SH.
  pose proof (faces_valid vx _ SH) as FV.
  rewrite svs_esub in *. rewrite (all_faces_map _ _ _ 10 0%Z) in *
    by (eapply Forall_impl; [|exact SH]; intros ? [? _]; assumption).
  set (G := all_faces 10 (map sv L)) in *. rewrite map_length in *.
  assert (NT : forall k, nth k (map (map (ev (sv p) vx)) G) [] = map (ev (sv p) vx) (nth k G [])).
  { intros k. change (@nil Z) with (map (ev (sv p) vx) []) at 1. apply map_nth. }
  assert (VT : forall k, Forall (fun l => valid (posl vx) l = true) (nth k G [])).
  { intros k. destruct (Nat.lt_ge_cases k (length G)) as [Hk|Hk].
    - rewrite Forall_forall in FV. apply FV. apply nth_In. exact Hk.
    - rewrite nth_overflow by exact Hk. constructor. }
  assert (PM : forall j k, Permutation (nth j (map (map (ev (sv p) vx)) G) []) (nth k (map (map (ev (sv p) vx)) G) []) <->
                           permb (nth j G []) (nth k G []) = true).
  { intros j k. rewrite !NT. split.
    - intros P. apply permb_complete. eapply perm_map_inv with (V := fun l => valid (posl vx) l = true); [|apply VT|apply VT|exact P].
      intros x y Vx Vy. apply ev_inj; assumption.
    - intros P. apply Permutation_map. apply permb_ok. exact P. }
  pose proof (all_cases_ok _ vx (sv p) pos_all Hx Hv N) as C. unfold chk_pos in C. rewrite EL in C.
  cbn [on_ret] in C. fold G in C. rewrite forallb_forall in C.
  specialize (C i (proj2 (in_seq _ _ _) (conj (Nat.le_0_l i) Hi))). cbv beta zeta in C. apply Nat.eqb_eq in C.
  set (ix := filter (fun j => permb (nth i G []) (nth j G [])) (seq 0 (length G))) in *.
  assert (IX : forall j, In j ix <-> (j < length G /\ permb (nth i G []) (nth j G []) = true)).
  { intros j. unfold ix. rewrite filter_In, in_seq. intuition lia. }
  assert (ND : NoDup ix) by (apply NoDup_filter; apply seq_NoDup).
  assert (II : In i ix) by (apply IX; split; [exact Hi | apply permb_complete; reflexivity]).
  destruct (existsb (fun f => forallb (lface f) (nth i G [])) l4) eqn:EX.
  - left. split.
    + apply existsb_exists in EX. destruct EX as [f [Hf Ef]]. apply l4_in in Hf. exists f. split; [exact Hf|].
      rewrite NT, on_faces_lab by auto. exact Ef.
    + intros j Hj' P. apply PM in P. assert (Ij : In j ix) by (apply IX; auto).
      destruct ix as [|a [|b r]]; try discriminate. cbn in II, Ij.
      destruct II as [->|[]]. destruct Ij as [->|[]]. reflexivity.
  - right. split.
    + intros f Hf. rewrite NT, on_faces_lab by auto.
      destruct (forallb (lface f) (nth i G [])) eqn:Ef; [|reflexivity]. exfalso.
      assert (X : existsb (fun f => forallb (lface f) (nth i G [])) l4 = true).
      { apply existsb_exists. exists f. split; [apply l4_in; exact Hf | exact Ef]. }
      congruence.
    + destruct ix as [|a [|b [|? ?]]]; try discriminate.
      inversion ND as [|? ? N1 N2]; subst. cbn in N1.
      assert (exists j, In j [a; b] /\ j <> i /\ forall k, In k [a; b] -> k = i \/ k = j) as [j [J1 [J2 J3]]].
      { cbn in II |- *. destruct II as [->|[->|[]]].
        - exists b. repeat split; [tauto | intros ->; tauto | intros k [<-|[<-|[]]]; auto].
        - exists a. repeat split; [tauto | intros ->; tauto | intros k [<-|[<-|[]]]; auto]. }
      exists j. apply IX in J1. destruct J1 as [J1 Jp].
      split; [exact J1|]. split; [exact J2|]. split; [apply PM; exact Jp|].
      intros k Hk P. apply J3. apply IX. split; [exact Hk | apply PM; exact P].
Qed.

(** ** C38: boundary data of the created tetrahedra *)

Section Data.
  Variables (junk vx : list Z) (p : csub) (subs : list csub).
  Hypotheses (W : wf p) (Hx : length vx = 6) (Hj : length junk = 4) (F : fresh (sv p) vx)
             (E : split junk vx p = Ret subs).

  Lemma data_lift s : In s subs -> exists L s0,
    ssplit (posl vx) (ltab (sv p)) = Ret L /\ In s0 L /\ s = esub vx p junk s0 /\
    length (sv s0) = 4 /\ Forall (fun l => valid (posl vx) l = true) (sv s0) /\
    length (sref s0) = 4 /\ length (sftag s0) = 4 /\ length (sori s0) = 4 /\ length (stag s0) = 6 /\ length (sedg s0) = 6.
  Proof.
    intros Hs. pose proof (fresh_nodup _ _ F) as N. assert (Hv : length (sv p) = 4) by (destruct W; assumption).
    destruct (lift _ _ _ _ W Hx Hj N E) as [L [EL ES]]. rewrite ES in Hs.
    apply in_map_iff in Hs. destruct Hs as [s0 [<- Hs]]. exists L, s0.
    pose proof (shape_of vx (sv p) L s0 Hx Hv N EL Hs). intuition.
  Qed.

  Lemma on_tri s0 i f : length (sv s0) = 4 -> Forall (fun l => valid (posl vx) l = true) (sv s0) -> i < 4 ->
    forallb (on_face (sv p) vx f) (lface_of 0%Z (sv (esub vx p junk s0)) i) = forallb (lface f) (lface_of 10 (sv s0) i).
  Proof.
    intros H4 HV Hi. rewrite sv_esub, (lface_of_map _ _ _ 10) by exact H4.
    apply on_faces_lab; [destruct W; assumption | exact Hx | exact F |].
    apply Forall_forall. intros l Hl. unfold lface_of in Hl. apply in_map_iff in Hl. destruct Hl as [k [<- Hk]].
    rewrite Forall_forall in HV. apply HV. apply nth_In. rewrite H4.
    do 4 (destruct i as [|i]; [cbn in Hk; lia|]). lia.
  Qed.
End Data.

Lemma case_face (A B : nat -> bool) P :
  forallb (fun f => implb (A f) (B f)) l4 && (existsb A l4 || P) = true ->
  (forall f, f < 4 -> A f = true -> B f = true) /\ ((forall f, f < 4 -> A f = false) -> P = true).
Proof.
  rewrite andb_true_iff, orb_true_iff, forallb_forall, existsb_exists. intros [H1 H2]. split.
  - intros f Hf Hb. specialize (H1 f (proj2 (l4_in f) Hf)). rewrite Hb in H1. exact H1.
  - intros Hn. destruct H2 as [[f [Hf Hb]]|H2]; [|exact H2]. apply l4_in in Hf. rewrite Hn in Hb by exact Hf. discriminate.
Qed.

(** A face of a created tetrahedron that lies on a face of the parent carries its
    reference and tag; an inner face carries none. *)
Theorem C38_faces : forall junk vx p subs s i,
  wf p -> length vx = 6 -> length junk = 4 -> fresh (sv p) vx ->
  split junk vx p = Ret subs -> In s subs -> i < 4 ->
  (forall f, f < 4 -> forallb (on_face (sv p) vx f) (lface_of 0%Z (sv s) i) = true ->
     nth i (sref s) 0%Z = nth f (sref p) 0%Z /\ nth i (sftag s) 0%Z = nth f (sftag p) 0%Z) /\
  ((forall f, f < 4 -> forallb (on_face (sv p) vx f) (lface_of 0%Z (sv s) i) = false) ->
     nth i (sref s) 0%Z = 0%Z /\ nth i (sftag s) 0%Z = 0%Z).
Proof.
  intros junk vx p subs s i W Hx Hj F E Hs Hi.
  destruct (data_lift _ _ _ _ W Hx Hj F E s Hs) as (L & s0 & EL & H0 & -> & H4 & HV & Hr & Hft & _).
  pose proof (all_cases_ok _ vx (sv p) faces_all Hx ltac:(destruct W; assumption) (fresh_nodup _ _ F)) as C.
  unfold chk_faces in C. rewrite EL in C. cbn [on_ret] in C. rewrite forallb_forall in C. specialize (C s0 H0).
  cbv beta in C. rewrite forallb_forall in C. specialize (C i (proj2 (l4_in i) Hi)). cbv beta zeta in C.
  apply case_face in C. destruct C as [C1 C2].
  assert (NR : nth i (sref (esub vx p junk s0)) 0%Z = ea p junk (nth i (sref s0) S0)) by apply (map_nth (ea p junk) (sref s0) S0).
  assert (NF : nth i (sftag (esub vx p junk s0)) 0%Z = ea p junk (nth i (sftag s0) S0)) by apply (map_nth (ea p junk) (sftag s0) S0).
  split.
  - intros f Hf Ho. rewrite on_tri in Ho by assumption. specialize (C1 f Hf Ho).
    apply andb_true_iff in C1. destruct C1 as [C1 C3]. apply src_eqb_eq in C1, C3.
    rewrite NR, NF, C1, C3. split; reflexivity.
  - intros Hn. rewrite (nth_indep _ (SR 0) S0), (nth_indep (sftag s0) (SF 0) S0) in C2 by lia.
    assert (C : src_eqb (nth i (sref s0) S0) S0 && src_eqb (nth i (sftag s0) S0) S0 = true).
    { apply C2. intros f Hf. specialize (Hn f Hf). rewrite on_tri in Hn by assumption. exact Hn. }
    apply andb_true_iff in C. destruct C as [C3 C4]. apply src_eqb_eq in C3, C4.
    rewrite NR, NF, C3, C4. split; reflexivity.
Qed.

(** Three marked edges in a row [a b], [b c], [c d] and no other, with the two
    inequalities that select the defective branch of [MMG5_split3op]. *)
Definition zigzag (vx v : list Z) : Prop :=
  exists a b c d, NoDup [a; b; c; d] /\ a < 4 /\ b < 4 /\ c < 4 /\ d < 4 /\
    (forall e, e < 6 -> ((0 < nth e vx 0)%Z <-> In e [edge_between a b; edge_between b c; edge_between c d])) /\
    (nth c v 0 < nth a v 0)%Z /\ (nth d v 0 < nth b v 0)%Z.

Definition perms4 : list (list nat) := map (map Z.to_nat) orders.
Definition zigb (pos : list bool) (T : list (list bool)) : bool :=
  existsb (fun s => let a := nth 0 s 0 in let b := nth 1 s 0 in let c := nth 2 s 0 in let d := nth 3 s 0 in
    forallb (fun e => Bool.eqb (nth e pos false) (inl e [edge_between a b; edge_between b c; edge_between c d])) l6 &&
    ltt T c a && ltt T d b) perms4.
Definition ori_good (s : ssub) : bool :=
  forallb (fun i =>
    let tri := lface_of 10 (sv s) i in
    forallb (fun f => implb (forallb (lface f) tri) (osrc_eqb (nth i (sori s) OSet) (OP f))) l4 &&
    (existsb (fun f => forallb (lface f) tri) l4 || osrc_eqb (nth i (sori s) (OP 0)) OSet)) l4.
Definition chk_ori2 (pos : list bool) (T : list (list bool)) : bool :=
  let z := zigb pos T in
  on_ret (ssplit pos T) (fun L => forallb (fun j => ((j =? 1) && z) || ori_good (nth j L sparent)) (seq 0 (length L))).
Lemma ori2_all : all_cases chk_ori2 = true.
Proof. vm_compute. reflexivity. Qed.

Lemma zigb_ok vx v : length v = 4 -> zigb (posl vx) (ltab v) = true -> zigzag vx v.
Proof.
  intros Hv H. unfold zigb in H. apply existsb_exists in H. destruct H as [s [Hs H]].
  rewrite !andb_true_iff in H. destruct H as [[H1 H2] H3].
  assert (Q : NoDup [nth 0 s 0; nth 1 s 0; nth 2 s 0; nth 3 s 0] /\
              nth 0 s 0 < 4 /\ nth 1 s 0 < 4 /\ nth 2 s 0 < 4 /\ nth 3 s 0 < 4).
  { clear - Hs. unfold perms4 in Hs. apply in_map_iff in Hs. destruct Hs as [z [<- Hz]].
    assert (K : forallb (fun z => nodupb (map Z.to_nat z) && forallb (fun x => (x <? 4)) (map Z.to_nat z) &&
              (length (map Z.to_nat z) =? 4)) orders = true) by (vm_compute; reflexivity).
    rewrite forallb_forall in K. specialize (K z Hz). cbv beta in K. rewrite !andb_true_iff in K.
    destruct K as [[K1 K2] K3]. apply nodupb_ok in K1. apply Nat.eqb_eq in K3. apply len4 in K3.
    destruct K3 as (a & b & c & d & Em). rewrite Em in *. cbn [nth].
    cbn [forallb] in K2. rewrite !andb_true_iff, !Nat.ltb_lt in K2. intuition. }
  destruct Q as [Q1 (Qa & Qb & Qc & Qd)].
  exists (nth 0 s 0), (nth 1 s 0), (nth 2 s 0), (nth 3 s 0). repeat (split; [assumption|]). split.
  - intros e He. rewrite forallb_forall in H1. specialize (H1 e (proj2 (l6_in e) He)). cbv beta in H1.
    apply Bool.eqb_prop in H1. rewrite nth_posl in H1. rewrite <- inl_In, <- H1, Z.ltb_lt. reflexivity.
  - rewrite ltab_nth in H2, H3 by (rewrite Hv; assumption). apply Z.ltb_lt in H2, H3. auto.
Qed.

(** Same statement for the orientation bits, apart from one branch.  Missing: the
    second tetrahedron in the case [zigzag] (see [C38_orientation_refuted]). *)
Theorem C38_orientation_partial : forall junk vx p subs s j i,
  wf p -> length vx = 6 -> length junk = 4 -> fresh (sv p) vx -> ~ zigzag vx (sv p) \/ j <> 1 ->
  split junk vx p = Ret subs -> nth_error subs j = Some s -> i < 4 ->
  (forall f, f < 4 -> forallb (on_face (sv p) vx f) (lface_of 0%Z (sv s) i) = true ->
     nth i (sori s) false = nth f (sori p) false) /\
  ((forall f, f < 4 -> forallb (on_face (sv p) vx f) (lface_of 0%Z (sv s) i) = false) ->
     nth i (sori s) false = true).
Proof.
  intros junk vx p subs s j i W Hx Hj F NZ E Hs Hi.
  assert (Hv : length (sv p) = 4) by (destruct W; assumption). pose proof (fresh_nodup _ _ F) as N.
  destruct (lift _ _ _ _ W Hx Hj N E) as [L [EL ES]]. subst subs.
  assert (Hl : j < length L).
  { rewrite <- (map_length (esub vx p junk)). apply nth_error_Some. rewrite Hs. discriminate. }
  assert (Es : s = esub vx p junk (nth j L sparent)).
  { erewrite map_nth_error in Hs; [injection Hs as <-; reflexivity|]. apply nth_error_nth'. exact Hl. }
  clear Hs. subst s. set (s0 := nth j L sparent) in *.
  destruct (shape_of vx (sv p) L s0 Hx Hv N EL (nth_In _ _ Hl)) as (H4 & HV & _ & _ & Ho & _).
  pose proof (all_cases_ok _ vx (sv p) ori2_all Hx Hv N) as C.
  unfold chk_ori2 in C. rewrite EL in C. cbn [on_ret] in C. rewrite forallb_forall in C.
  specialize (C j (proj2 (in_seq _ _ _) (conj (Nat.le_0_l j) Hl))). cbv beta in C. fold s0 in C.
  apply orb_true_iff in C. destruct C as [C|C].
  { exfalso. apply andb_true_iff in C. destruct C as [Cj Cz]. apply Nat.eqb_eq in Cj.
    destruct NZ as [NZ|NZ]; [apply NZ; apply zigb_ok; assumption | contradiction]. }
  unfold ori_good in C. rewrite forallb_forall in C. specialize (C i (proj2 (l4_in i) Hi)). cbv beta zeta in C.
  apply case_face in C. destruct C as [C1 C2].
  assert (NO : forall d, nth i (sori (esub vx p junk s0)) (eo p d) = eo p (nth i (sori s0) d)) by (intros d; apply (map_nth (eo p) (sori s0) d)).
  assert (NO' : nth i (sori (esub vx p junk s0)) false = eo p (nth i (sori s0) OSet)).
  { rewrite <- NO. apply nth_indep. cbn. rewrite map_length, Ho. exact Hi. }
  split.
  - intros f Hf Hb. rewrite on_tri in Hb by assumption. specialize (C1 f Hf Hb). apply osrc_eqb_eq in C1.
    rewrite NO', C1. reflexivity.
  - intros Hn. rewrite (nth_indep _ (OP 0) OSet) in C2 by lia.
    assert (C : osrc_eqb (nth i (sori s0) OSet) OSet = true).
    { apply C2. intros f Hf. specialize (Hn f Hf). rewrite on_tri in Hn by assumption. exact Hn. }
    rewrite NO', (osrc_eqb_eq _ _ C). reflexivity.
Qed.

Lemma case_edge (A B : nat -> bool) P :
  forallb (fun f => implb (A f) (B f)) l6 && (existsb A l6 || P) = true ->
  (forall f, f < 6 -> A f = true -> B f = true) /\ ((forall f, f < 6 -> A f = false) -> P = true).
Proof.
  rewrite andb_true_iff, orb_true_iff, forallb_forall, existsb_exists. intros [H1 H2]. split.
  - intros f Hf Hb. specialize (H1 f (proj2 (l6_in f) Hf)). rewrite Hb in H1. exact H1.
  - intros Hn. destruct H2 as [[f [Hf Hb]]|H2]; [|exact H2]. apply l6_in in Hf. rewrite Hn in Hb by exact Hf. discriminate.
Qed.

(** End points of edge [e] of a tetrahedron. *)
Definition ends_of {A} (d : A) (v : list A) (e : nat) : list A := [nth (fst (iare e)) v d; nth (snd (iare e)) v d].

Lemma ends_map vx v s e : length s = 4 -> e < 6 -> ends_of 0%Z (map (ev v vx) s) e = map (ev v vx) (ends_of 10 s e).
Proof.
  intros H He. apply len4 in H. destruct H as (a & b & c & d & ->).
  do 6 (destruct e as [|e]; [reflexivity|]). lia.
Qed.
Lemma ends_valid vx s e : length s = 4 -> Forall (fun l => valid (posl vx) l = true) s -> e < 6 ->
  Forall (fun l => valid (posl vx) l = true) (ends_of 10 s e).
Proof.
  intros H4 HV He. pose proof (iare_lt e He). rewrite Forall_forall in HV.
  unfold ends_of. repeat constructor; apply HV; apply nth_In; lia.
Qed.
Lemma on_ends_edge v vx s e k : length v = 4 -> length vx = 6 -> fresh v vx -> length s = 4 ->
  Forall (fun l => valid (posl vx) l = true) s -> e < 6 -> k < 6 ->
  forallb (on_edge v vx k) (ends_of 0%Z (map (ev v vx) s) e) = forallb (ledge k) (ends_of 10 s e).
Proof.
  intros Hv Hx F H4 HV He Hk. rewrite ends_map by assumption. apply forallb_map_ext.
  eapply Forall_impl; [|apply (ends_valid vx); eassumption]. intros l Hl. apply on_edge_lab; assumption.
Qed.
Lemma on_ends_face v vx s e f : length v = 4 -> length vx = 6 -> fresh v vx -> length s = 4 ->
  Forall (fun l => valid (posl vx) l = true) s -> e < 6 ->
  forallb (on_face v vx f) (ends_of 0%Z (map (ev v vx) s) e) = forallb (lface f) (ends_of 10 s e).
Proof.
  intros Hv Hx F H4 HV He. rewrite ends_map by assumption. apply on_faces_lab; try assumption.
  apply ends_valid; assumption.
Qed.

(** An edge of a created tetrahedron that lies on an edge of the parent carries its
    reference and tag; all other edges have the reference 0. *)
Theorem C38_edges : forall junk vx p subs s e,
  wf p -> length vx = 6 -> length junk = 4 -> fresh (sv p) vx ->
  split junk vx p = Ret subs -> In s subs -> e < 6 ->
  (forall k, k < 6 -> forallb (on_edge (sv p) vx k) (ends_of 0%Z (sv s) e) = true ->
     nth e (sedg s) 0%Z = nth k (sedg p) 0%Z /\ nth e (stag s) 0%Z = nth k (stag p) 0%Z) /\
  ((forall k, k < 6 -> forallb (on_edge (sv p) vx k) (ends_of 0%Z (sv s) e) = false) ->
     nth e (sedg s) 0%Z = 0%Z).
Proof.
  intros junk vx p subs s e W Hx Hj F E Hs He.
  destruct (data_lift _ _ _ _ W Hx Hj F E s Hs) as (L & s0 & EL & H0 & -> & H4 & HV & _ & _ & _ & Ht & Hg).
  assert (Hv : length (sv p) = 4) by (destruct W; assumption).
  pose proof (all_cases_ok _ vx (sv p) edges_all Hx Hv (fresh_nodup _ _ F)) as C.
  unfold chk_edges in C. rewrite EL in C. cbn [on_ret] in C. rewrite forallb_forall in C. specialize (C s0 H0).
  cbv beta in C. rewrite forallb_forall in C. specialize (C e (proj2 (l6_in e) He)). cbv beta zeta in C.
  apply case_edge in C. destruct C as [C1 C2].
  assert (NT : nth e (stag (esub vx p junk s0)) 0%Z = ea p junk (nth e (stag s0) S0)) by apply (map_nth (ea p junk) (stag s0) S0).
  assert (NE : nth e (sedg (esub vx p junk s0)) 0%Z = ea p junk (nth e (sedg s0) S0)) by apply (map_nth (ea p junk) (sedg s0) S0).
  rewrite (nth_indep (stag s0) (SR 0) S0), (nth_indep (sedg s0) (SR 0) S0) in C1 by lia.
  rewrite (nth_indep (sedg s0) (SR 0) S0) in C2 by lia. rewrite NT, NE, sv_esub. split.
  - intros k Hk Ho. rewrite on_ends_edge in Ho by assumption. specialize (C1 k Hk Ho).
    apply andb_true_iff in C1. destruct C1 as [C1 C3]. apply src_eqb_eq in C1, C3. rewrite C1, C3. split; reflexivity.
  - intros Hn.
    assert (K : forall k, k < 6 -> forallb (ledge k) (ends_of 10 (sv s0) e) = false).
    { intros k Hk. specialize (Hn k Hk). rewrite on_ends_edge in Hn by assumption. exact Hn. }
    specialize (C2 K). apply andb_true_iff in C2. destruct C2 as [C2 _]. apply src_eqb_eq in C2. rewrite C2. reflexivity.
Qed.

(** An edge created inside a face gets the tag of that face without the mark
    MG_REF (bit 0); an edge inside the parent gets the tag 0.  Missing: six
    marked edges (see [C38_inner_edges_refuted]). *)
Theorem C38_inner_edges_partial : forall junk vx p subs s e,
  wf p -> length vx = 6 -> length junk = 4 -> fresh (sv p) vx ->
  (exists k, k < 6 /\ (nth k vx 0 <= 0)%Z) ->
  split junk vx p = Ret subs -> In s subs -> e < 6 ->
  (forall k, k < 6 -> forallb (on_edge (sv p) vx k) (ends_of 0%Z (sv s) e) = false) ->
  (forall f, f < 4 -> forallb (on_face (sv p) vx f) (ends_of 0%Z (sv s) e) = true ->
     nth e (stag s) 0%Z = Z.land (nth f (sftag p) 0%Z) (Z.lnot 1)) /\
  ((forall f, f < 4 -> forallb (on_face (sv p) vx f) (ends_of 0%Z (sv s) e) = false) ->
     nth e (stag s) 0%Z = 0%Z).
Proof.
  intros junk vx p subs s e W Hx Hj F [k0 [Hk0 Hp0]] E Hs He.
  destruct (data_lift _ _ _ _ W Hx Hj F E s Hs) as (L & s0 & EL & H0 & -> & H4 & HV & _ & _ & _ & Ht & Hg).
  assert (Hv : length (sv p) = 4) by (destruct W; assumption).
  pose proof (all_cases_ok _ vx (sv p) edges_all Hx Hv (fresh_nodup _ _ F)) as C.
  unfold chk_edges in C. rewrite EL in C. cbn [on_ret] in C. rewrite forallb_forall in C. specialize (C s0 H0).
  cbv beta in C. rewrite forallb_forall in C. specialize (C e (proj2 (l6_in e) He)). cbv beta zeta in C.
  apply case_edge in C. destruct C as [_ C2].
  assert (NT : nth e (stag (esub vx p junk s0)) 0%Z = ea p junk (nth e (stag s0) S0)) by apply (map_nth (ea p junk) (stag s0) S0).
  rewrite NT, sv_esub. intros Hn.
  assert (K : forall k, k < 6 -> forallb (ledge k) (ends_of 10 (sv s0) e) = false).
  { intros k Hk. specialize (Hn k Hk). rewrite on_ends_edge in Hn by assumption. exact Hn. }
  specialize (C2 K). apply andb_true_iff in C2. destruct C2 as [_ C2].
  assert (SK : is_six (flag_of 1 (posl vx)) = false).
  { clear - Hx Hk0 Hp0. assert (P0 : nth k0 (posl vx) false = false) by (rewrite nth_posl; apply Z.ltb_ge; exact Hp0).
    assert (Hl : length (posl vx) = 6) by (unfold posl; rewrite map_length; exact Hx).
    apply len6 in Hl. destruct Hl as (b0 & b1 & b2 & b3 & b4 & b5 & Eb). rewrite Eb in *.
    do 6 (destruct k0 as [|k0]; [cbn [nth] in P0; subst; clear Eb;
      repeat match goal with b : bool |- _ => destruct b end; reflexivity|]). lia. }
  rewrite SK in C2. cbn [orb] in C2. rewrite (nth_indep (stag s0) (SR 0) S0) in C2 by lia.
  apply case_face in C2. destruct C2 as [C2 C3]. split.
  - intros f Hf Ho. rewrite on_ends_face in Ho by assumption. specialize (C2 f Hf Ho). apply src_eqb_eq in C2.
    rewrite C2. reflexivity.
  - intros Hm. assert (C4 : src_eqb (nth e (stag s0) S0) S0 = true).
    { apply C3. intros f Hf. specialize (Hm f Hf). rewrite on_ends_face in Hm by assumption. exact Hm. }
    apply src_eqb_eq in C4. rewrite C4. reflexivity.
Qed.

(** When all six edges are marked, the tag of an edge created inside a face comes
    from the same face in the uninitialised data, but for edge 5 of the seventh
    tetrahedron. *)
Definition chk_edges6 (pos : list bool) (T : list (list bool)) : bool :=
  negb (is_six (flag_of 1 pos)) ||
  on_ret (ssplit pos T) (fun L => forallb (fun j => forallb (fun e =>
    let s := nth j L sparent in
    let ends := ends_of 10 (sv s) e in
    let tg := nth e (stag s) S0 in
    existsb (fun k => forallb (ledge k) ends) l6 || ((j =? 6) && (e =? 5)) ||
    (forallb (fun f => implb (forallb (lface f) ends) (src_eqb tg (SJ f))) l4 &&
     (existsb (fun f => forallb (lface f) ends) l4 || src_eqb tg S0))) l6) (seq 0 (length L))).
Lemma edges6_all : all_cases chk_edges6 = true.
Proof. vm_compute. reflexivity. Qed.

Theorem C38_inner_edges_six_partial : forall junk vx p subs s j e,
  wf p -> length vx = 6 -> length junk = 4 -> fresh (sv p) vx ->
  (forall k, k < 6 -> (0 < nth k vx 0)%Z) ->
  split junk vx p = Ret subs -> nth_error subs j = Some s -> e < 6 -> ~ (j = 6 /\ e = 5) ->
  (forall k, k < 6 -> forallb (on_edge (sv p) vx k) (ends_of 0%Z (sv s) e) = false) ->
  (forall f, f < 4 -> forallb (on_face (sv p) vx f) (ends_of 0%Z (sv s) e) = true ->
     nth e (stag s) 0%Z = Z.land (nth f junk 0%Z) (Z.lnot 1)) /\
  ((forall f, f < 4 -> forallb (on_face (sv p) vx f) (ends_of 0%Z (sv s) e) = false) ->
     nth e (stag s) 0%Z = 0%Z).
Proof.
  intros junk vx p subs s j e W Hx Hj F Hall E Hs He Hje.
  assert (Hv : length (sv p) = 4) by (destruct W; assumption). pose proof (fresh_nodup _ _ F) as N.
  destruct (lift _ _ _ _ W Hx Hj N E) as [L [EL ES]]. subst subs.
  assert (Hl : j < length L).
  { rewrite <- (map_length (esub vx p junk)). apply nth_error_Some. rewrite Hs. discriminate. }
  assert (Es : s = esub vx p junk (nth j L sparent)).
  { erewrite map_nth_error in Hs; [injection Hs as <-; reflexivity|]. apply nth_error_nth'. exact Hl. }
  set (s0 := nth j L sparent) in *.
  destruct (shape_of vx (sv p) L s0 Hx Hv N EL (nth_In _ _ Hl)) as (H4 & HV & _ & _ & _ & Ht & _).
  pose proof (all_cases_ok _ vx (sv p) edges6_all Hx Hv N) as C.
  assert (SK : is_six (flag_of 1 (posl vx)) = true).
  { clear - Hx Hall. assert (P : posl vx = [true; true; true; true; true; true]).
    { apply len6 in Hx. destruct Hx as (b0 & b1 & b2 & b3 & b4 & b5 & ->).
      pose proof (Hall 0 ltac:(lia)). pose proof (Hall 1 ltac:(lia)). pose proof (Hall 2 ltac:(lia)).
      pose proof (Hall 3 ltac:(lia)). pose proof (Hall 4 ltac:(lia)). pose proof (Hall 5 ltac:(lia)). cbn [nth] in *.
      unfold posl. cbn [map]. repeat f_equal; apply Z.ltb_lt; assumption. }
    rewrite P. reflexivity. }
  unfold chk_edges6 in C. rewrite SK, EL in C. cbn [negb orb on_ret] in C. rewrite forallb_forall in C.
  specialize (C j (proj2 (in_seq _ _ _) (conj (Nat.le_0_l j) Hl))). cbv beta in C. rewrite forallb_forall in C.
  specialize (C e (proj2 (l6_in e) He)). cbv beta zeta in C. fold s0 in C.
  assert (NT : nth e (stag (esub vx p junk s0)) 0%Z = ea p junk (nth e (stag s0) S0)) by apply (map_nth (ea p junk) (stag s0) S0).
  rewrite Es, NT, sv_esub. intros Hn.
  rewrite !orb_true_iff in C. destruct C as [[C|C]|C].
  { exfalso. apply existsb_exists in C. destruct C as [k [Hk C]]. apply l6_in in Hk. specialize (Hn k Hk).
    rewrite on_ends_edge in Hn by assumption. congruence. }
  { exfalso. apply Hje. rewrite andb_true_iff, !Nat.eqb_eq in C. exact C. }
  apply case_face in C. destruct C as [C2 C3]. split.
  - intros f Hf Ho. rewrite on_ends_face in Ho by assumption. specialize (C2 f Hf Ho). apply src_eqb_eq in C2.
    rewrite C2. reflexivity.
  - intros Hm. assert (C4 : src_eqb (nth e (stag s0) S0) S0 = true).
    { apply C3. intros f Hf. specialize (Hm f Hf). rewrite on_ends_face in Hm by assumption. exact Hm. }
    apply src_eqb_eq in C4. rewrite C4. reflexivity.
Qed.

(** The refuting cases.  A tetrahedron without boundary but for face 1, which is
    shared with another material and oriented away from it ([sori] false). *)
Definition ori_parent : csub :=
  Sub [20; 40; 30; 10]%Z [0; 7; 0; 0]%Z [0; 16; 0; 0]%Z [true; false; true; true] [0; 0; 0; 0; 0; 0]%Z [0; 0; 0; 0; 0; 0]%Z.
Definition ori_vx : list Z := [101; 102; 0; 0; 0; 103]%Z.

(** [MMG5_split3op] sets the orientation bit of a face that lies on the boundary
    instead of that of the inner face: the first loses its orientation and the
    second one, which has none, is left as in the parent. *)
Theorem C38_orientation_refuted : exists vx p subs s i f,
  wf p /\ length vx = 6 /\ fresh (sv p) vx /\ split [0; 0; 0; 0]%Z vx p = Ret subs /\ In s subs /\
  i < 4 /\ f < 4 /\ forallb (on_face (sv p) vx f) (lface_of 0%Z (sv s) i) = true /\
  nth i (sref s) 0%Z = 7%Z /\ nth i (sori s) false = true /\ nth f (sori p) false = false.
Proof.
  exists ori_vx, ori_parent.
  eexists. eexists. exists 1, 1.
  split; [repeat split|]. split; [reflexivity|]. split.
  { apply (proj2 (NoDup_count_occ Z.eq_dec _)). intros x. cbn -[Z.eq_dec].
    repeat (destruct (Z.eq_dec _ x); [subst; cbn; lia|]). lia. }
  split; [vm_compute; reflexivity|].
  split; [right; left; reflexivity|].
  split; [lia|]. split; [lia|]. vm_compute. repeat split.
Qed.

(** Same parent, all edges marked: an edge created inside a face gets a tag that
    depends on an uninitialised variable. *)
Definition six_vx : list Z := [101; 102; 103; 104; 105; 106]%Z.
Theorem C38_inner_edges_refuted : exists vx p,
  wf p /\ length vx = 6 /\ fresh (sv p) vx /\
  exists subs subs' s s' e f, split [0; 0; 0; 0]%Z vx p = Ret subs /\ split [0; 2; 0; 0]%Z vx p = Ret subs' /\
  nth_error subs 0 = Some s /\ nth_error subs' 0 = Some s' /\ e < 6 /\ f < 4 /\
  forallb (on_face (sv p) vx f) (ends_of 0%Z (sv s) e) = true /\
  nth f (sftag p) 0%Z = 16%Z /\ nth e (stag s) 0%Z = 0%Z /\ nth e (stag s') 0%Z = 2%Z.
Proof.
  exists six_vx, ori_parent.
  split; [repeat split|]. split; [reflexivity|]. split.
  { apply (proj2 (NoDup_count_occ Z.eq_dec _)). intros x. cbn -[Z.eq_dec].
    repeat (destruct (Z.eq_dec _ x); [subst; cbn; lia|]). lia. }
  eexists. eexists. eexists. eexists. exists 5, 1.
  split; [vm_compute; reflexivity|]. split; [vm_compute; reflexivity|].
  split; [reflexivity|]. split; [reflexivity|]. split; [lia|]. split; [lia|]. vm_compute. repeat split.
Qed.

(** Even with the variable initialised as intended, one edge gets the tag of
    another face. *)
Theorem C38_inner_edges_wrong_face_refuted : exists vx p subs s e f,
  wf p /\ length vx = 6 /\ fresh (sv p) vx /\ split (sftag p) vx p = Ret subs /\
  nth_error subs 6 = Some s /\ e < 6 /\ f < 4 /\
  forallb (on_face (sv p) vx f) (ends_of 0%Z (sv s) e) = true /\
  nth f (sftag p) 0%Z = 16%Z /\ nth e (stag s) 0%Z = 0%Z.
Proof.
  exists six_vx, ori_parent. eexists. eexists. exists 5, 1.
  split; [repeat split|]. split; [reflexivity|]. split.
  { apply (proj2 (NoDup_count_occ Z.eq_dec _)). intros x. cbn -[Z.eq_dec].
    repeat (destruct (Z.eq_dec _ x); [subst; cbn; lia|]). lia. }
  split; [vm_compute; reflexivity|].
  split; [reflexivity|]. split; [lia|]. split; [lia|]. vm_compute. repeat split.
Qed.

(** The slots of boundary data: a created tetrahedron gets one exactly when one of
    its faces has a reference or a tag, slots are distinct, the slot of the parent
    is the first one used and the others are new. *)
Theorem C38_slots : forall x0 n subs ids n',
  (0 < x0 <= n)%Z -> slots x0 n subs = (ids, n') ->
  length ids = length subs /\ (n <= n')%Z /\
  NoDup (filter (fun x => negb (x =? 0)%Z) ids) /\
  (forall x, In x ids -> x = 0%Z \/ x = x0 \/ (n < x <= n')%Z) /\
  (forall j s, nth_error subs j = Some s ->
     (nth j ids 0%Z <> 0%Z <-> exists i, i < 4 /\ (nth i (sref s) 0%Z <> 0%Z \/ nth i (sftag s) 0%Z <> 0%Z))) /\
  (forall y, (n < y <= n')%Z -> In y ids) /\
  ((exists x, In x ids /\ x <> 0%Z) -> In x0 ids).
Proof.
  intros x0 n subs ids n' Hx0 E.
  assert (IS : forall s, isxt s = true <-> exists i, i < 4 /\ (nth i (sref s) 0%Z <> 0%Z \/ nth i (sftag s) 0%Z <> 0%Z)).
  { intros s. unfold isxt. rewrite existsb_exists. split.
    - intros [i [Hi H]]. exists i. split; [apply l4_in; exact Hi|].
      apply orb_true_iff in H. rewrite !negb_true_iff, !Z.eqb_neq in H. exact H.
    - intros [i [Hi H]]. exists i. split; [apply l4_in; exact Hi|].
      apply orb_true_iff. rewrite !negb_true_iff, !Z.eqb_neq. exact H. }
  unfold slots in E. destruct (Z.eqb_spec x0 0) as [|_]; [lia|].
  assert (G : forall l first m ids m', (x0 <= m)%Z -> give x0 first m l = (ids, m') ->
     length ids = length l /\ (m <= m')%Z /\ NoDup (filter (fun x => negb (x =? 0)%Z) ids) /\
     (forall x, In x ids -> x = 0%Z \/ (first = true /\ x = x0) \/ (m < x <= m')%Z) /\
     (forall j b, nth_error l j = Some b -> (nth j ids 0%Z <> 0%Z <-> b = true)) /\
     (forall y, (m < y <= m')%Z -> In y ids) /\
     (first = true -> (exists x, In x ids /\ x <> 0%Z) -> In x0 ids)).
  { induction l as [|b l IH]; intros first m is m' Hm EG; cbn [give] in EG.
    - injection EG as <- <-. split; [reflexivity|]. split; [lia|]. split; [constructor|].
      split; [intros x []|]. split; [intros [|j] b Hb; discriminate|]. split; [intros; lia|].
      intros _ [x [[] _]].
    - destruct b; [destruct first|].
      + destruct (give x0 false m l) as [s k] eqn:Es. injection EG as <- <-.
        destruct (IH false m s k Hm Es) as (H1 & H2 & H3 & H4 & H5 & H6 & H7).
        split; [cbn; lia|]. split; [exact H2|]. split.
        { cbn [filter]. destruct (Z.eqb_spec x0 0); [lia|]. cbn [negb]. constructor; [|exact H3].
          intros Hin. apply filter_In in Hin. destruct Hin as [Hin _]. apply H4 in Hin.
          destruct Hin as [|[[? _]|]]; [lia | discriminate | lia]. }
        split. { intros x [<-|Hin]; [right; left; auto|]. apply H4 in Hin. destruct Hin as [|[[? _]|]]; [auto|discriminate|auto]. }
        split. { intros [|j] b Hb; cbn in *; [injection Hb as <-; split; [reflexivity|lia] | apply H5; exact Hb]. }
        split. { intros y Hy. right. apply H6. exact Hy. }
        intros _ _. left. reflexivity.
      + destruct (give x0 false (m + 1) l) as [s k] eqn:Es. injection EG as <- <-.
        destruct (IH false (m + 1)%Z s k ltac:(lia) Es) as (H1 & H2 & H3 & H4 & H5 & H6 & H7).
        split; [cbn; lia|]. split; [lia|]. split.
        { cbn [filter]. destruct (Z.eqb_spec (m + 1) 0); [lia|]. cbn [negb]. constructor; [|exact H3].
          intros Hin. apply filter_In in Hin. destruct Hin as [Hin _]. apply H4 in Hin.
          destruct Hin as [|[[? _]|]]; [lia | discriminate | lia]. }
        split. { intros x [<-|Hin]; [right; right; lia|]. apply H4 in Hin. destruct Hin as [|[[? _]|]]; [auto|discriminate|right; right; lia]. }
        split. { intros [|j] b Hb; cbn in *; [injection Hb as <-; split; [reflexivity|lia] | apply H5; exact Hb]. }
        split. { intros y Hy. destruct (Z.eq_dec y (m + 1)) as [->|]; [left; reflexivity | right; apply H6; lia]. }
        discriminate.
      + destruct (give x0 first m l) as [s k] eqn:Es. injection EG as <- <-.
        destruct (IH first m s k Hm Es) as (H1 & H2 & H3 & H4 & H5 & H6 & H7).
        split; [cbn; lia|]. split; [exact H2|]. split; [exact H3|].
        split. { intros x [<-|Hin]; [left; reflexivity | apply H4; exact Hin]. }
        split. { intros [|j] b Hb; cbn in *; [injection Hb as <-; split; [congruence | discriminate] | apply H5; exact Hb]. }
        split. { intros y Hy. right. apply H6. exact Hy. }
        intros Hf [x [[<-|Hin] Hn]]; [congruence|]. right. apply H7; eauto. }
  destruct (G _ _ _ _ _ (proj2 Hx0) E) as (H1 & H2 & H3 & H4 & H5 & H6 & H7).
  split; [rewrite H1, map_length; reflexivity|]. split; [exact H2|]. split; [exact H3|].
  split. { intros x Hin. apply H4 in Hin. destruct Hin as [|[[_ ?]|]]; auto. }
  split. { intros j s Hs. rewrite <- IS. apply H5. apply map_nth_error. exact Hs. }
  split; [exact H6 | apply H7; reflexivity].
Qed.

(** ** C39: the simulation tests the tetrahedra that will be created *)

Theorem C39_tested : forall junk vx p,
  wf p -> length vx = 6 -> length junk = 4 -> NoDup (sv p) -> (exists e, e < 6 /\ (0 < nth e vx 0)%Z) ->
  exists subs, split junk vx p = Ret subs /\ tested vx (sv p) = Ret (map sv subs).
Proof.
  intros junk vx p W Hx Hj N [e [He Hp]]. assert (Hv : length (sv p) = 4) by (destruct W; assumption).
  pose proof (all_cases_ok _ vx (sv p) sim_all Hx Hv N) as C. unfold chk_sim in C.
  apply orb_true_iff in C. destruct C as [C|C].
  { exfalso. apply negb_true_iff in C. assert (X : existsb (fun b => b) (posl vx) = true); [|congruence].
    apply existsb_exists. exists true. split; [|reflexivity].
    replace true with (nth e (posl vx) false) by (rewrite nth_posl; apply Z.ltb_lt; exact Hp).
    apply nth_In. unfold posl. rewrite map_length, Hx. exact He. }
  rewrite split_sym, tested_sym by assumption.
  destruct (ssplit (posl vx) (ltab (sv p))) as [L|]; [|discriminate].
  destruct (stested (posl vx) (ltab (sv p))) as [M|]; [|discriminate]. cbn [on_ret] in C.
  unfold eqln in C. destruct (list_eq_dec (list_eq_dec Nat.eq_dec) (map sv L) M) as [<-|]; [|discriminate].
  exists (map (esub vx p junk) L). split; [reflexivity|]. f_equal. symmetry. apply svs_esub.
Qed.

(** The simulation accepts exactly when the parent and all the tetrahedra that the
    splitting creates have a volume of at least MMG5_EPSOK. *)
Theorem C39_simulation : forall junk vx p c,
  wf p -> length vx = 6 -> length junk = 4 -> NoDup (sv p) -> (exists e, e < 6 /\ (0 < nth e vx 0)%Z) ->
  exists subs b, split junk vx p = Ret subs /\ sim c vx (sv p) = Ret b /\
    (b = true <-> (/ 10 ^ 15 <= orvol c (sv p))%R /\ forall s, In s subs -> (/ 10 ^ 15 <= orvol c (sv s))%R).
Proof.
  intros junk vx p c W Hx Hj N He. destruct (C39_tested junk vx p W Hx Hj N He) as [subs [E1 E2]].
  exists subs. unfold sim. rewrite E2. cbn [bind]. fold EPSOK.
  destruct (KerModel.ltb (orvol c (sv p)) EPSOK) eqn:B.
  - exists false. split; [exact E1|]. split; [reflexivity|]. apply PropsKer.ltb_t in B.
    split; [discriminate | intros [H _]; lra].
  - exists (forallb (fun s => negb (KerModel.ltb (orvol c s) EPSOK)) (map sv subs)).
    split; [exact E1|]. split; [reflexivity|]. apply PropsKer.ltb_f in B.
    rewrite forallb_forall. split.
    + intros H. split; [lra|]. intros s Hs. specialize (H (sv s) (in_map _ _ _ Hs)).
      apply negb_true_iff in H. apply PropsKer.ltb_f in H. lra.
    + intros [_ H] v Hv. apply in_map_iff in Hv. destruct Hv as [s [<- Hs]]. specialize (H s Hs).
      apply negb_true_iff. apply PropsKer.ltb_ff. lra.
Qed.

(** ** C40: the level-set discretisation handles every tetrahedron *)

Definition sgn3 : list Z := [-1; 0; 1]%Z.

(** Without materials that are kept whole, every edge with end values of opposite
    signs is cut; every sign pattern is then handled and a tetrahedron is left
    alone only when no edge is cut. *)
Theorem C40_volume_cut_total : forall (s : nat -> Z) v,
  length v = 4 ->
  exists b, switch_ls (flag_ls (marked_edge s v)) = Ret b /\
    (b = true <-> exists e, e < 6 /\
       (s (Z.to_nat (nth (fst (iare e)) v 0%Z)) * s (Z.to_nat (nth (snd (iare e)) v 0%Z)) < 0)%Z).
Proof.
  intros s v Hv. apply len4 in Hv. destruct Hv as (a & b & c & d & ->).
  set (x := s (Z.to_nat a)). set (y := s (Z.to_nat b)). set (z := s (Z.to_nat c)). set (w := s (Z.to_nat d)).
  assert (M : forall p q, (p * q <? 0)%Z = ((0 <? p)%Z && (q <? 0)%Z) || ((p <? 0)%Z && (0 <? q)%Z)).
  { intros p q. destruct (Z.ltb_spec 0 p), (Z.ltb_spec q 0), (Z.ltb_spec p 0), (Z.ltb_spec 0 q); cbn;
      try (apply Z.ltb_lt; nia); apply Z.ltb_ge; nia. }
  assert (B : (exists e, e < 6 /\ (s (Z.to_nat (nth (fst (iare e)) [a; b; c; d] 0)) * s (Z.to_nat (nth (snd (iare e)) [a; b; c; d] 0)) < 0)%Z) <->
              ((x * y <? 0)%Z || (x * z <? 0)%Z || (x * w <? 0)%Z || (y * z <? 0)%Z || (y * w <? 0)%Z || (z * w <? 0)%Z) = true).
  { rewrite !orb_true_iff, !Z.ltb_lt. split.
    - intros [e [He H]]. do 6 (destruct e as [|e]; [cbn [iare nth fst snd] in H; tauto|]). lia.
    - intros [[[[[H|H]|H]|H]|H]|H]; [exists 0|exists 1|exists 2|exists 3|exists 4|exists 5]; (split; [lia | exact H]). }
  setoid_rewrite B. clear B.
  assert (T : forall p : Z, ((0 <? p)%Z = true /\ (p <? 0)%Z = false) \/ ((0 <? p)%Z = false /\ (p <? 0)%Z = true) \/
                        ((0 <? p)%Z = false /\ (p <? 0)%Z = false)).
  { intros p. destruct (Z.ltb_spec 0 p), (Z.ltb_spec p 0); try lia; auto. }
  unfold flag_ls, marked_edge. cbn [map iare nth fst snd]. fold x y z w. rewrite !M.
  destruct (T x) as [[-> ->]|[[-> ->]|[-> ->]]]; destruct (T y) as [[-> ->]|[[-> ->]|[-> ->]]];
  destruct (T z) as [[-> ->]|[[-> ->]|[-> ->]]]; destruct (T w) as [[-> ->]|[[-> ->]|[-> ->]]];
  (eexists; split; [vm_compute; reflexivity | cbn; intuition congruence]).
Qed.

(** The surface variant handles every subset of the edges with end values of
    opposite signs. *)
Theorem C40_surface_cut_total : forall (s : nat -> Z) v (cut : nat -> bool),
  length v = 4 -> (forall e, e < 6 -> cut e = true -> marked_edge s v e = true) ->
  exists b, switch_lssurf (flag_ls cut) = Ret b /\ (b = true <-> exists e, e < 6 /\ cut e = true).
Proof.
  intros s v cut Hv H. apply len4 in Hv. destruct Hv as (a & b & c & d & ->).
  assert (H0 := H 0 ltac:(lia)). assert (H1 := H 1 ltac:(lia)). assert (H2 := H 2 ltac:(lia)).
  assert (H3 := H 3 ltac:(lia)). assert (H4 := H 4 ltac:(lia)). assert (H5 := H 5 ltac:(lia)). clear H.
  unfold marked_edge in *. cbn [iare nth fst snd] in *. rewrite !Z.ltb_lt in *.
  revert H0 H1 H2 H3 H4 H5.
  generalize (s (Z.to_nat a)) (s (Z.to_nat b)) (s (Z.to_nat c)) (s (Z.to_nat d)). intros x y z w H0 H1 H2 H3 H4 H5.
  assert (B : (exists e, e < 6 /\ cut e = true) <-> (cut 0 || cut 1 || cut 2 || cut 3 || cut 4 || cut 5) = true).
  { rewrite !orb_true_iff. split.
    - intros [e [He K]]. do 6 (destruct e as [|e]; [tauto|]). lia.
    - intros [[[[[K|K]|K]|K]|K]|K]; eexists; (split; [|exact K]; lia). }
  setoid_rewrite B. unfold flag_ls. cbn [map].
  assert (TF : forall p q r, (p * q < 0)%Z -> (p * r < 0)%Z -> (q * r < 0)%Z -> False) by (intros; nia).
  (* a face has at most two edges with opposite signs *)
  assert (F3 : cut 0 && cut 1 && cut 3 = false).
  { destruct (cut 0), (cut 1), (cut 3); try reflexivity. exfalso. apply (TF x y z); auto. }
  assert (F2 : cut 0 && cut 2 && cut 4 = false).
  { destruct (cut 0), (cut 2), (cut 4); try reflexivity. exfalso. apply (TF x y w); auto. }
  assert (F1 : cut 1 && cut 2 && cut 5 = false).
  { destruct (cut 1), (cut 2), (cut 5); try reflexivity. exfalso. apply (TF x z w); auto. }
  assert (F0 : cut 3 && cut 4 && cut 5 = false).
  { destruct (cut 3), (cut 4), (cut 5); try reflexivity. exfalso. apply (TF y z w); auto. }
  clear - F0 F1 F2 F3.
  destruct (cut 0), (cut 1), (cut 2), (cut 3), (cut 4), (cut 5); try discriminate;
    (eexists; split; [vm_compute; reflexivity | cbn; intuition congruence]).
Qed.

(** With a material that is kept whole, the volume variant meets a tetrahedron
    with two opposite edges cut, for which it has no case: the assertion fails and
    without assertions the mesh is left non conforming.  The tetrahedron 1 2 3 4 is
    not split; its edges 1 2 and 3 4 belong to split tetrahedra. *)
Definition mm_tets : list (list Z * bool) :=
  [([1; 2; 3; 4]%Z, false); ([1; 2; 5; 6]%Z, true); ([3; 4; 7; 8]%Z, true)].
Definition mm_sign (x : nat) : Z := if Nat.odd x then 1%Z else (-1)%Z.
Theorem C40_kept_material_refuted : exists tets s v,
  In (v, false) tets /\ (forall x, s x <> 0%Z) /\
  switch_ls (flag_ls (cut_ls tets s v)) = Stuck /\
  switch_lssurf (flag_ls (cut_ls tets s v)) = Ret true.
Proof.
  exists mm_tets, mm_sign, [1; 2; 3; 4]%Z. split; [left; reflexivity|]. split.
  - intros x. unfold mm_sign. destruct (Nat.odd x); discriminate.
  - vm_compute. split; reflexivity.
Qed.

(** ** Concrete cases meeting the hypotheses *)

Definition ex_parent : csub :=
  Sub [5; 3; 9; 4]%Z [1; 0; 2; 0]%Z [16; 0; 17; 0]%Z [true; true; false; true] [1; 2; 3; 4; 5; 6]%Z [11; 12; 13; 14; 15; 16]%Z.
Definition ex_vx : list Z := [21; 0; 0; 22; 0; 23]%Z.
Lemma ex_hyps : wf ex_parent /\ length ex_vx = 6 /\ fresh (sv ex_parent) ex_vx.
Proof.
  split; [repeat split|]. split; [reflexivity|].
  apply (proj2 (NoDup_count_occ Z.eq_dec _)). intros x. cbn -[Z.eq_dec].
  repeat (destruct (Z.eq_dec _ x); [subst; cbn; lia|]). lia.
Qed.
Example ex_split : exists subs, split [0; 0; 0; 0]%Z ex_vx ex_parent = Ret subs /\ length subs = 5 /\
  map sv subs <> [sv ex_parent].
Proof. eexists. split; [vm_compute; reflexivity|]. split; [reflexivity | discriminate]. Qed.

(** Two different tetrahedra sharing face 0 of the first and face 3 of the second. *)
Definition nb_parent : csub :=
  Sub [4; 3; 9; 77]%Z [0; 0; 0; 1]%Z [0; 0; 0; 16]%Z [true; true; true; false] [0; 0; 0; 0; 0; 0]%Z [0; 0; 0; 0; 0; 0]%Z.
Definition nb_vx : list Z := [0; 23; 0; 22; 24; 0]%Z.
Example ex_neighbours : wf nb_parent /\ fresh (sv nb_parent) nb_vx /\
  Permutation (fdata (sv ex_parent) ex_vx 0) (fdata (sv nb_parent) nb_vx 3) /\
  length (face_tris (fdata (sv ex_parent) ex_vx 0)) = 3.
Proof.
  split; [repeat split|]. split.
  { apply (proj2 (NoDup_count_occ Z.eq_dec _)). intros x. cbn -[Z.eq_dec].
    repeat (destruct (Z.eq_dec _ x); [subst; cbn; lia|]). lia. }
  split; [|vm_compute; reflexivity].
  cbn. eapply perm_trans; [apply perm_swap|]. eapply perm_trans; [apply perm_skip; apply perm_swap|].
  eapply perm_trans; [apply perm_swap|]. apply Permutation_refl.
Qed.

(** Three edges in a row that are not [zigzag]. *)
Definition ex_vx2 : list Z := [21; 22; 0; 0; 0; 23]%Z.
Example ex_not_zigzag : fresh (sv ex_parent) ex_vx2 /\ ~ zigzag ex_vx2 (sv ex_parent).
Proof.
  split.
  { apply (proj2 (NoDup_count_occ Z.eq_dec _)). intros x. cbn -[Z.eq_dec].
    repeat (destruct (Z.eq_dec _ x); [subst; cbn; lia|]). lia. }
  intros (a & b & c & d & N & Ha & Hb & Hc & Hd & H & H1 & H2).
  assert (A0 := proj1 (H 0 ltac:(lia)) ltac:(cbn; lia)).
  assert (A1 := proj1 (H 1 ltac:(lia)) ltac:(cbn; lia)).
  assert (A5 := proj1 (H 5 ltac:(lia)) ltac:(cbn; lia)). clear H.
  assert (K : forallb (fun a => forallb (fun b => forallb (fun c => forallb (fun d =>
     let l := [edge_between a b; edge_between b c; edge_between c d] in
     negb (nodupb [a; b; c; d] && inl 0 l && inl 1 l && inl 5 l && (nth c (sv ex_parent) 0 <? nth a (sv ex_parent) 0)%Z &&
           (nth d (sv ex_parent) 0 <? nth b (sv ex_parent) 0)%Z)) l4) l4) l4) l4 = true) by (vm_compute; reflexivity).
  rewrite forallb_forall in K. specialize (K a (proj2 (l4_in a) Ha)). cbv beta in K.
  rewrite forallb_forall in K. specialize (K b (proj2 (l4_in b) Hb)). cbv beta in K.
  rewrite forallb_forall in K. specialize (K c (proj2 (l4_in c) Hc)). cbv beta in K.
  rewrite forallb_forall in K. specialize (K d (proj2 (l4_in d) Hd)). cbv beta zeta in K.
  assert (N' : nodupb [a; b; c; d] = true).
  { destruct (nodupb [a; b; c; d]) eqn:E; [reflexivity|]. exfalso. clear - N E.
    inversion N as [|? ? N1 N2]; subst. inversion N2 as [|? ? N3 N4]; subst. inversion N4 as [|? ? N5 N6]; subst.
    rewrite <- inl_In, Bool.not_true_iff_false in N1, N3, N5. cbn [nodupb] in E. rewrite N1, N3, N5 in E. discriminate. }
  apply inl_In in A0, A1, A5. apply Z.ltb_lt in H1, H2. rewrite N', A0, A1, A5, H1, H2 in K. discriminate.
Qed.

Print Assumptions C17_volumes.
Print Assumptions C17_face_triangles.
Print Assumptions C17_conform.
Print Assumptions C17_inner_faces.
Print Assumptions C38_faces.
Print Assumptions C38_orientation_partial.
Print Assumptions C38_edges.
Print Assumptions C38_inner_edges_partial.
Print Assumptions C38_inner_edges_six_partial.
Print Assumptions C38_slots.
Print Assumptions C39_tested.
Print Assumptions C39_simulation.
Print Assumptions C40_volume_cut_total.
Print Assumptions C40_surface_cut_total.
Print Assumptions C38_orientation_refuted.
Print Assumptions C38_inner_edges_refuted.
Print Assumptions C38_inner_edges_wrong_face_refuted.
Print Assumptions C40_kept_material_refuted.
