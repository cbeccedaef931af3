(** C10, C11, C12, C41: setting and reading the entities of a mesh. *)
From Coq Require Import ZArith Reals List Bool Lia Lra Permutation.
From Verif Require Import CBase KerModel ApiModel ApiSpec ApiProofs.
Import ListNotations.
Open Scope Z_scope.

(** What a getter leaves in an optional array of the caller. *)
Definition filled (p p' : option (arr Z)) (n : Z) (f : Z -> Z) : Prop :=
  match p, p' with
  | None, None => True
  | Some a, Some a' => alen a' = alen a /\ (forall i, 1 <= i <= n -> aget a' (i - 1) = f i) /\
                       (forall j, j < 0 \/ n <= j -> aget a' j = aget a j)
  | _, _ => False
  end.

Definition filled_upto (p p' : option (arr Z)) (n i : Z) (f : Z -> Z) : Prop :=
  match p, p' with
  | None, None => True
  | Some a, Some a' => alen a' = alen a /\ (forall j, 1 <= j <= n -> j < i -> aget a' (j - 1) = f j) /\
                       (forall j, j < 0 \/ n <= j -> aget a' j = aget a j)
  | _, _ => False
  end.

Lemma filled_start p n f : filled_upto p p n 1 f.
Proof. destruct p as [a|]; cbn; [|trivial]. split; [reflexivity|]. split; [intros; lia|reflexivity]. Qed.

Lemma filled_step p p' n i f x : filled_upto p p' n i f -> ok_refs p n -> 1 <= i <= n -> f i = x ->
  exists p'', wr_opt p' (i - 1) x = Ret p'' /\ filled_upto p p'' n (i + 1) f.
Proof.
  intros H Hr Hi Hx. destruct p as [a|], p' as [a'|]; cbn in H; try contradiction.
  - destruct H as (L & H1 & H2). cbn [ok_refs] in Hr. cbn [wr_opt]. rewrite wr_ok by lia. cbn [bind].
    eexists. split; [reflexivity|]. cbn. split; [exact L|]. split.
    + intros j Hj Hlt. destruct (Z.eq_dec j i) as [->|Hne].
      * rewrite upd_same. auto.
      * rewrite upd_other by lia. apply H1; lia.
    + intros j Hj. rewrite upd_other by lia. apply H2. exact Hj.
  - exists None. split; [reflexivity|exact I].
Qed.

Lemma filled_end p p' n f : filled_upto p p' n (n + 1) f -> filled p p' n f.
Proof.
  destruct p as [a|], p' as [a'|]; cbn; auto. intros (L & H1 & H2). split; [exact L|]. split; [|exact H2].
  intros i Hi. apply H1; lia.
Qed.

(** Row [i] of width [n] of a flat array. *)
Definition rows {A} (a : arr A) (d : nat) (i : Z) : list A :=
  map (fun j => aget a ((i - 1) * Z.of_nat d + Z.of_nat j)) (seq 0 d).

Lemma rows_written A (dflt : A) (a a' : arr A) d i l :
  length l = d ->
  (forall j, 0 <= j < Z.of_nat d -> aget a' ((i - 1) * Z.of_nat d + j) = nth (Z.to_nat j) l dflt) ->
  rows a' d i = l.
Proof.
  intros Hl H. unfold rows. apply nth_ext with (d := dflt) (d' := dflt).
  - rewrite map_length, seq_length. congruence.
  - intros k Hk. rewrite map_length, seq_length in Hk.
    rewrite nth_indep with (d' := aget a' ((i - 1) * Z.of_nat d + Z.of_nat 0)) by (rewrite map_length, seq_length; exact Hk).
    rewrite map_nth with (f := fun j => aget a' ((i - 1) * Z.of_nat d + Z.of_nat j)) (d := 0%nat).
    rewrite seq_nth by exact Hk. rewrite H by lia. f_equal. lia.
Qed.

Lemma rows_frame A (a a' : arr A) d i :
  (forall j, 0 <= j < Z.of_nat d -> aget a' ((i - 1) * Z.of_nat d + j) = aget a ((i - 1) * Z.of_nat d + j)) ->
  rows a' d i = rows a d i.
Proof. intros H. unfold rows. apply map_ext_in. intros j Hj. apply in_seq in Hj. apply H. lia. Qed.

Lemma get_vertices_ok m w vs refs co rq : wf m -> obs m w ->
  3 * mnp m <= alen vs -> ok_refs refs (mnp m) -> ok_refs co (mnp m) -> ok_refs rq (mnp m) ->
  exists vs' refs' co' rq', Get_vertices m vs refs co rq = Ret (vs', refs', co', rq') /\
    (forall i, 1 <= i <= mnp m -> rows vs' 3 i = [vx (w_c w i); vy (w_c w i); vz (w_c w i)]) /\
    alen vs' = alen vs /\ (forall j, j < 0 \/ 3 * mnp m <= j -> aget vs' j = aget vs j) /\
    filled refs refs' (mnp m) (w_ref w) /\
    filled co co' (mnp m) (fun i => b2z (w_crn w i)) /\
    filled rq rq' (mnp m) (fun i => b2z (w_req w i)).
Proof.
  intros W O Hv Hr Hc Hq. destruct (W) as [Wn Wp _ _ _ _]. destruct (O) as [Oc Or Ok Oq _ _ _ _].
  unfold Get_vertices. match goal with |- context [for_range 1 _ ?f _] => set (F := f) end.
  destruct (@for_range_inv _ (fun i (s : arr R * option (arr Z) * option (arr Z) * option (arr Z)) =>
     let '(vs', refs', co', rq') := s in
     (forall j, 1 <= j <= mnp m -> j < i -> rows vs' 3 j = [vx (w_c w j); vy (w_c w j); vz (w_c w j)]) /\
     alen vs' = alen vs /\ (forall j, j < 0 \/ 3 * mnp m <= j -> aget vs' j = aget vs j) /\
     filled_upto refs refs' (mnp m) i (w_ref w) /\
     filled_upto co co' (mnp m) i (fun i => b2z (w_crn w i)) /\
     filled_upto rq rq' (mnp m) i (fun i => b2z (w_req w i))) F 1 (mnp m) (vs, refs, co, rq))
    as ((((vs' & refs') & co') & rq') & E & H1 & H2 & H3 & H4 & H5 & H6).
  - lia.
  - split; [intros; lia|]. split; [reflexivity|]. split; [reflexivity|]. auto 12 using filled_start.
  - intros i (((vs1 & refs1) & co1) & rq1) Hi (H1 & H2 & H3 & H4 & H5 & H6).
    unfold F. rewrite rd_ok by lia. cbn [bind]. rewrite Oc, Or, Ok, Oq by exact Hi.
    destruct (@wr_list_ok R 0%R [vx (w_c w i); vy (w_c w i); vz (w_c w i)] vs1 ((i - 1) * 3)) as (vs2 & E2 & L2 & A2 & B2);
      [lia|cbn; lia|]. rewrite E2. cbn [bind].
    destruct (@filled_step _ _ _ _ _ _ H4 Hr Hi eq_refl) as (r2 & -> & H4'). cbn [bind].
    destruct (@filled_step _ _ _ _ _ _ H5 Hc Hi eq_refl) as (c2 & -> & H5'). cbn [bind].
    destruct (@filled_step _ _ _ _ _ _ H6 Hq Hi eq_refl) as (q2 & -> & H6'). cbn [bind].
    eexists. split; [reflexivity|]. cbv beta iota. cbn [length] in *. change (Z.of_nat 3) with 3 in *.
    split; [|split; [congruence|split; [|auto]]].
    + intros j Hj Hlt. destruct (Z.eq_dec j i) as [->|Hne].
      * apply (@rows_written R 0%R vs1); [reflexivity|]. exact A2.
      * rewrite <- (H1 j Hj) by lia. apply rows_frame. intros z Hz. apply B2. change (Z.of_nat 3) with 3 in *. lia.
    + intros j Hj. rewrite B2 by lia. auto.
  - exists vs', refs', co', rq'. split; [exact E|]. split; [intros i Hi; apply H1; lia|].
    auto 12 using filled_end.
Qed.

Lemma get_elts_ok k m w flat refs rd rq : wf m -> obs m w ->
  mcnt m k * Z.of_nat (nv k) <= alen flat -> ok_refs refs (mcnt m k) -> ok_refs rd (mcnt m k) -> ok_refs rq (mcnt m k) ->
  exists flat' refs' rd' rq', Get_elts k m flat refs rd rq = Ret (flat', refs', rd', rq') /\
    (forall i, 1 <= i <= mcnt m k -> rows flat' (nv k) i = out_order k (we_v w k i)) /\
    alen flat' = alen flat /\ (forall j, j < 0 \/ mcnt m k * Z.of_nat (nv k) <= j -> aget flat' j = aget flat j) /\
    filled refs refs' (mcnt m k) (we_ref w k) /\
    filled rd rd' (mcnt m k) (fun i => b2z (we_rid w k i)) /\
    filled rq rq' (mcnt m k) (fun i => b2z (we_req w k i)).
Proof.
  intros W O Hv Hr Hc Hq. destruct (W) as [_ _ Wc We _ Wv]. destruct (O) as [_ _ _ _ Ov Or Oq Od].
  specialize (Wc k). specialize (We k).
  unfold Get_elts. match goal with |- context [for_range 1 _ ?f _] => set (F := f) end.
  destruct (@for_range_inv _ (fun i (s : arr Z * option (arr Z) * option (arr Z) * option (arr Z)) =>
     let '(vs', refs', co', rq') := s in
     (forall j, 1 <= j <= mcnt m k -> j < i -> rows vs' (nv k) j = out_order k (we_v w k j)) /\
     alen vs' = alen flat /\ (forall j, j < 0 \/ mcnt m k * Z.of_nat (nv k) <= j -> aget vs' j = aget flat j) /\
     filled_upto refs refs' (mcnt m k) i (we_ref w k) /\
     filled_upto rd co' (mcnt m k) i (fun i => b2z (we_rid w k i)) /\
     filled_upto rq rq' (mcnt m k) i (fun i => b2z (we_req w k i))) F 1 (mcnt m k) (flat, refs, rd, rq))
    as ((((vs' & refs') & co') & rq') & E & H1 & H2 & H3 & H4 & H5 & H6).
  - lia.
  - split; [intros; lia|]. split; [reflexivity|]. split; [reflexivity|]. auto 12 using filled_start.
  - intros i (((vs1 & refs1) & co1) & rq1) Hi (H1 & H2 & H3 & H4 & H5 & H6).
    unfold F. rewrite rd_ok by lia. cbn [bind].
    assert (Lo : length (out_order k (ev (aget (mel m k) i))) = nv k).
    { pose proof (Wv k i Hi) as L. destruct k; auto.
      destruct (ev (aget (mel m KPri) i)) as [|z0 [|z1 [|z2 [|z3 [|z4 [|z5 [|]]]]]]]; try discriminate L. reflexivity. }
    rewrite Ov in * by exact Hi. rewrite Or, Oq, Od by exact Hi.
    destruct (@wr_list_ok Z 0 (out_order k (we_v w k i)) vs1 ((i - 1) * Z.of_nat (nv k))) as (vs2 & E2 & L2 & A2 & B2);
      [nia|rewrite Lo; nia|]. rewrite E2. cbn [bind]. rewrite Lo in *.
    destruct (@filled_step _ _ _ _ _ _ H4 Hr Hi eq_refl) as (r2 & -> & H4'). cbn [bind].
    destruct (@filled_step _ _ _ _ _ _ H5 Hc Hi eq_refl) as (c2 & -> & H5'). cbn [bind].
    destruct (@filled_step _ _ _ _ _ _ H6 Hq Hi eq_refl) as (q2 & -> & H6'). cbn [bind].
    eexists. split; [reflexivity|]. cbv beta iota.
    split; [|split; [congruence|split; [|auto]]].
    + intros j Hj Hlt. destruct (Z.eq_dec j i) as [->|Hne].
      * apply (@rows_written Z 0 vs1); [exact Lo|]. exact A2.
      * rewrite <- (H1 j Hj) by lia. apply rows_frame. intros z Hz. apply B2. nia.
    + intros j Hj. rewrite B2 by nia. auto.
  - exists vs', refs', co', rq'. split; [exact E|]. split; [intros i Hi; apply H1; lia|].
    auto 12 using filled_end.
Qed.

(** ** C10 *)

(** Whatever the sizes of the mesh and the history of setting calls, no call
    touches memory outside the arrays, each returns what the specification
    says, and the array getter of the vertices then gives the last coordinates,
    reference, corner and required marks, without touching the rest of the
    caller's arrays. *)
Theorem C10_vertices np npmax cnt max h vs refs co rq :
  0 <= np <= npmax -> (forall k, 0 <= cnt k <= max k) ->
  Forall (ok_call np cnt) h ->
  3 * np <= alen vs -> ok_refs refs np -> ok_refs co np -> ok_refs rq np ->
  let rets := fst (expects np cnt h view0) in
  let w := snd (expects np cnt h view0) in
  exists m vs' refs' co' rq',
    run h (new_mesh np npmax cnt max) = Ret (rets, m) /\
    Get_vertices m vs refs co rq = Ret (vs', refs', co', rq') /\
    (forall i, 1 <= i <= np -> rows vs' 3 i = [vx (w_c w i); vy (w_c w i); vz (w_c w i)]) /\
    alen vs' = alen vs /\ (forall j, j < 0 \/ 3 * np <= j -> aget vs' j = aget vs j) /\
    filled refs refs' np (w_ref w) /\
    filled co co' np (fun i => b2z (w_crn w i)) /\
    filled rq rq' np (fun i => b2z (w_req w i)).
Proof.
  intros Hn Hc Hf H1 H2 H3 H4. cbv zeta.
  destruct (@new_mesh_ok np npmax cnt max Hn Hc) as [W O].
  destruct (@steps np cnt h _ _ W O eq_refl eq_refl Hf) as (m & E & W' & O' & (S1 & _ & S3 & _)).
  cbn [new_mesh mnp mcnt] in S1, S3.
  destruct (@get_vertices_ok m _ vs refs co rq W' O') as (vs' & r' & c' & q' & G); rewrite ?S1; try assumption.
  rewrite S1 in G. exists m, vs', r', c', q'. split; [exact E|exact G].
Qed.

(** The same for tetrahedra, triangles, quadrilaterals and edges; [w] stores a
    tetrahedron given with a negative volume with its last two vertices
    exchanged. *)
Theorem C10_elements k np npmax cnt max h flat refs rd rq :
  k <> KPri ->
  0 <= np <= npmax -> (forall k, 0 <= cnt k <= max k) ->
  Forall (ok_call np cnt) h ->
  cnt k * Z.of_nat (nv k) <= alen flat -> ok_refs refs (cnt k) -> ok_refs rd (cnt k) -> ok_refs rq (cnt k) ->
  let rets := fst (expects np cnt h view0) in
  let w := snd (expects np cnt h view0) in
  exists m flat' refs' rd' rq',
    run h (new_mesh np npmax cnt max) = Ret (rets, m) /\
    Get_elts k m flat refs rd rq = Ret (flat', refs', rd', rq') /\
    (forall i, 1 <= i <= cnt k -> rows flat' (nv k) i = we_v w k i) /\
    alen flat' = alen flat /\ (forall j, j < 0 \/ cnt k * Z.of_nat (nv k) <= j -> aget flat' j = aget flat j) /\
    filled refs refs' (cnt k) (we_ref w k) /\
    filled rd rd' (cnt k) (fun i => b2z (we_rid w k i)) /\
    filled rq rq' (cnt k) (fun i => b2z (we_req w k i)).
Proof.
  intros Hk Hn Hc Hf H1 H2 H3 H4. cbv zeta.
  destruct (@new_mesh_ok np npmax cnt max Hn Hc) as [W O].
  destruct (@steps np cnt h _ _ W O eq_refl eq_refl Hf) as (m & E & W' & O' & (S1 & _ & S3 & _)).
  cbn [new_mesh mnp mcnt] in S1, S3.
  destruct (@get_elts_ok k m _ flat refs rd rq W' O') as (vs' & r' & c' & q' & G1 & G2 & G3); rewrite ?S3; try assumption.
  rewrite S3 in *. exists m, vs', r', c', q'. split; [exact E|]. split; [exact G1|]. split; [|exact G3].
  intros i Hi. rewrite G2 by exact Hi. destruct k; try reflexivity. congruence.
Qed.

(** Prisms: the getter exchanges the second and the third vertex; everything
    else is as for the other elements. *)
Theorem C10_prisms_partial np npmax cnt max h flat refs rd rq :
  0 <= np <= npmax -> (forall k, 0 <= cnt k <= max k) ->
  Forall (ok_call np cnt) h ->
  cnt KPri * 6 <= alen flat -> ok_refs refs (cnt KPri) -> ok_refs rd (cnt KPri) -> ok_refs rq (cnt KPri) ->
  let rets := fst (expects np cnt h view0) in
  let w := snd (expects np cnt h view0) in
  exists m flat' refs' rd' rq',
    run h (new_mesh np npmax cnt max) = Ret (rets, m) /\
    Get_elts KPri m flat refs rd rq = Ret (flat', refs', rd', rq') /\
    (forall i, 1 <= i <= cnt KPri -> exists a b c d e f, we_v w KPri i = [a; b; c; d; e; f] /\
        rows flat' 6 i = [a; c; b; d; e; f]) /\
    alen flat' = alen flat /\ (forall j, j < 0 \/ cnt KPri * 6 <= j -> aget flat' j = aget flat j) /\
    filled refs refs' (cnt KPri) (we_ref w KPri) /\
    filled rd rd' (cnt KPri) (fun i => b2z (we_rid w KPri i)) /\
    filled rq rq' (cnt KPri) (fun i => b2z (we_req w KPri i)).
Proof.
  intros Hn Hc Hf H1 H2 H3 H4. cbv zeta.
  destruct (@new_mesh_ok np npmax cnt max Hn Hc) as [W O].
  destruct (@steps np cnt h _ _ W O eq_refl eq_refl Hf) as (m & E & W' & O' & (S1 & _ & S3 & _)).
  cbn [new_mesh mnp mcnt] in S1, S3.
  destruct (@get_elts_ok KPri m _ flat refs rd rq W' O') as (vs' & r' & c' & q' & G1 & G2 & G3 & G4 & G5 & G6 & G7); rewrite ?S3; try assumption.
  rewrite S3 in *. exists m, vs', r', c', q'. split; [exact E|]. split; [exact G1|]. split; [|auto].
  intros i Hi. specialize (G2 i Hi). cbn [nv] in G2. rewrite G2.
  destruct W' as [_ _ _ _ _ Wv]. destruct O' as [_ _ _ _ Ov _ _ _].
  specialize (Wv KPri i). specialize (Ov KPri i). rewrite S3 in *. specialize (Wv Hi). rewrite (Ov Hi) in Wv.
  destruct (we_v (snd (expects np cnt h view0)) KPri i) as [|z0 [|z1 [|z2 [|z3 [|z4 [|z5 [|]]]]]]]; try discriminate Wv.
  do 6 eexists. split; reflexivity.
Qed.

(** One prism set with [MMG3D_Set_prism] and read with [MMG3D_Get_prisms]. *)
Definition one (k : kind) : kind -> Z := fun k' => if kind_eqb k' k then 1 else 0.
Lemma one_ok k k' : 0 <= one k k' <= one k k'.
Proof. unfold one. destruct (kind_eqb k' k); lia. Qed.

Theorem C10_prisms_refuted : exists np cnt h,
  Forall (ok_call np cnt) h /\ cnt KPri = 1 /\ h = [CElt KPri [1; 2; 3; 4; 5; 6] 0 1] /\
  exists m flat', run h (new_mesh np np cnt cnt) = Ret ([1], m) /\
    Get_elts KPri m (acalloc 6 0) None None None = Ret (flat', None, None, None) /\
    rows flat' 6 1 <> [1; 2; 3; 4; 5; 6].
Proof.
  set (h := [CElt KPri [1; 2; 3; 4; 5; 6] 0 1]).
  exists 6, (one KPri), h.
  assert (Hok : Forall (ok_call 6 (one KPri)) h).
  { unfold h. repeat constructor; cbn; lia. }
  split; [exact Hok|]. split; [reflexivity|]. split; [reflexivity|].
  destruct (@C10_prisms_partial 6 6 (one KPri) (one KPri) h (acalloc 6 0) None None None) as
    (m & fl & r' & c' & q' & E & G & H & _ & _ & F1 & F0 & F2);
    [lia|intros; apply one_ok|exact Hok|cbn; lia|exact I|exact I|exact I|].
  destruct (H 1) as (a & b & c & d & e & f & Hw & Hr); [cbn; lia|].
  exists m, fl. split; [exact E|].
  cbn in F0, F1, F2. destruct r'; [contradiction|]. destruct c'; [contradiction|]. destruct q'; [contradiction|].
  split; [exact G|]. rewrite Hr. cbn in Hw. intros K.
  injection Hw as <- <- <- <- <- <-. discriminate K.
Qed.

(** A mesh with a negative tetrahedron, a triangle and a required edge. *)
Example C10_case : exists np cnt h,
  Forall (ok_call np cnt) h /\
  fst (expects np cnt h view0) = [1; 1; 1; 1; 1] /\
  we_v (snd (expects np cnt h view0)) KTet 1 = [1; 2; 4; 3] /\
  we_ref (snd (expects np cnt h view0)) KTet 1 = 7 /\
  we_v (snd (expects np cnt h view0)) KTri 1 = [3; 2; 1] /\
  we_req (snd (expects np cnt h view0)) KEdg 1 = true.
Proof.
  set (cnt := fun k => match k with KTet | KTri | KEdg => 1 | _ => 0 end).
  set (vs := mkArr 12 (fun i => if (i =? 3) || (i =? 8) || (i =? 10) then 1%R else 0%R)).
  exists 4, cnt,
    [CVertices vs None; CElt KTet [1; 2; 3; 4] (-7) 1; CElt KTri [3; 2; 1] 5 1; CElt KEdg [1; 2] 3 1; CMark MReqEdg 1 true].
  assert (Hv : vol6 (fun i => V3 (aget vs (3 * (i - 1))) (aget vs (3 * (i - 1) + 1)) (aget vs (3 * (i - 1) + 2))) [1; 2; 3; 4] = (-1)%R).
  { unfold vol6. cbn. ring. }
  split.
  { repeat constructor; cbn; try lia; try discriminate. }
  cbn [expects expect]. cbn -[vol6 vs flat_tet oriented view0].
  set (C := pick (fun _ => true) _ _).
  assert (HC : vol6 C [1; 2; 3; 4] = (-1)%R) by exact Hv.
  assert (E2 : (EPSD2 < 1)%R).
  { assert (1 < 10 ^ 200)%R by (apply Rlt_pow_R1; [lra|lia]).
    unfold EPSD2. replace 1%R with (/ 1)%R by apply Rinv_1. apply Rinv_lt_contravar; lra. }
  assert (HF : flat_tet C [1; 2; 3; 4] = false).
  { unfold flat_tet. rewrite HC. rewrite Rabs_left by lra. unfold ltb. destruct (Rlt_dec EPSD2 (- -1)); [reflexivity|lra]. }
  rewrite HF. cbn [negb b2z]. split; [reflexivity|]. split; [|repeat split; reflexivity].
  cbn -[vol6 vs flat_tet C]. rewrite HF, HC. unfold ltb. destruct (Rlt_dec (-1) 0); [reflexivity|lra].
Qed.

(** ** C12 *)

Theorem C12_set_tetrahedron m a b c d r pos :
  wf m -> 1 <= pos <= mcnt m KTet -> Forall (fun v => 1 <= v <= mnp m) [a; b; c; d] ->
  let coords := fun i => pc (aget (mpt m) i) in
  exists ret m', Set_tetrahedron m [a; b; c; d] r pos = Ret (ret, m') /\
    (ret = 0 \/ ret = 1) /\
    (ret = 0 <-> (Rabs (vol6 coords [a; b; c; d]) <= EPSD2)%R) /\
    let e := aget (mel m' KTet) pos in
    Permutation (ev e) [a; b; c; d] /\ eref e = Z.abs r /\
    (ret = 1 -> (vol6 coords (ev e) = Rabs (vol6 coords [a; b; c; d]) /\ vol6 coords (ev e) > EPSD2)%R) /\
    (ret = 1 -> (0 < vol6 coords [a; b; c; d])%R -> ev e = [a; b; c; d]) /\
    (ret = 1 -> (vol6 coords [a; b; c; d] < 0)%R -> ev e = [a; b; d; c]) /\
    (forall i, 1 <= i <= mcnt m KTet -> i <> pos -> ev (aget (mel m' KTet) i) = ev (aget (mel m KTet) i) /\
                                        eref (aget (mel m' KTet) i) = eref (aget (mel m KTet) i)) /\
    (forall i, 1 <= i <= mnp m -> pc (aget (mpt m') i) = coords i).
Proof.
  intros W Hp Hf coords.
  set (w := mkW coords (fun i => pref (aget (mpt m) i)) (fun i => has (ptag (aget (mpt m) i)) MG_CRN)
                (fun i => has (ptag (aget (mpt m) i)) MG_REQ) (fun k i => ev (aget (mel m k) i))
                (fun k i => eref (aget (mel m k) i)) (fun k i => reqd (aget (mel m k) i)) (fun k i => ridge (aget (mel m k) i))).
  assert (O : obs m w) by (constructor; reflexivity).
  destruct (@step_elt KTet m w [a; b; c; d] r pos W O) as (m' & E & W' & O' & S'); [lia|reflexivity|auto|].
  cbn [exec Set_elt expect] in E, O'.
  destruct (Z.ltb_spec (mcnt m KTet) pos); [lia|]. cbn [fst snd] in E, O'.
  change (w_c w) with coords in *.
  eexists. exists m'. split; [exact E|].
  destruct S' as (S1 & _ & S3 & _). destruct O' as [Oc _ _ _ Ov Or _ _]. rewrite S1, S3 in *.
  set (vol := vol6 coords [a; b; c; d]).
  assert (Hev : ev (aget (mel m' KTet) pos) = oriented coords [a; b; c; d]).
  { rewrite Ov by lia. cbn [set_e we_v]. unfold pickk, pick. cbn [kind_eqb]. rewrite Z.eqb_refl. reflexivity. }
  assert (Her : eref (aget (mel m' KTet) pos) = Z.abs r).
  { rewrite Or by lia. cbn [set_e we_ref]. unfold pickk, pick. cbn [kind_eqb]. rewrite Z.eqb_refl. reflexivity. }
  unfold flat_tet. fold vol.
  assert (Hneg : vol6 coords [a; b; d; c] = (- vol)%R) by (unfold vol, vol6; cbn [nth]; ring).
  split; [destruct (ltb EPSD2 (Rabs vol)); cbn; auto|].
  split.
  { unfold ltb. destruct (Rlt_dec EPSD2 (Rabs vol)); cbn [negb b2z]; split; intros; try lra; try discriminate; auto. }
  cbv zeta. rewrite Hev, Her.
  unfold oriented, flat_tet. fold vol.
  split; [|split; [reflexivity|split; [|split; [|split; [|split]]]]].
  - destruct (_ && _); [|reflexivity]. repeat constructor.
  - unfold ltb. destruct (Rlt_dec EPSD2 (Rabs vol)); cbn [negb b2z]; [|discriminate]. intros _.
    assert (0 < EPSD2)%R by (unfold EPSD2; apply Rinv_0_lt_compat, pow_lt; lra).
    destruct (Rlt_dec vol 0); cbn [andb].
    + rewrite Hneg, Rabs_left by lra. rewrite Rabs_left in r0 by lra. split; [reflexivity|lra].
    + fold vol. rewrite Rabs_right in * by lra. split; [reflexivity|lra].
  - intros _ Hpos. unfold ltb. destruct (Rlt_dec vol 0); [lra|]. rewrite andb_false_r. reflexivity.
  - unfold ltb. destruct (Rlt_dec EPSD2 (Rabs vol)); cbn [negb b2z]; [|discriminate]. intros _ Hlt.
    destruct (Rlt_dec vol 0); [reflexivity|lra].
  - intros i Hi Hne. rewrite Ov, Or by exact Hi. cbn [set_e we_v we_ref]. unfold pickk, pick. cbn [kind_eqb].
    destruct (Z.eqb_spec pos i); [lia|]. split; reflexivity.
  - intros i Hi. rewrite Oc by exact Hi. reflexivity.
Qed.

(** Four vertices given in the negative order. *)
Example C12_case : exists m, wf m /\ mcnt m KTet = 1 /\ mnp m = 4 /\
  vol6 (fun i => pc (aget (mpt m) i)) [1; 2; 3; 4] = (-1)%R /\
  exists m', Set_tetrahedron m [1; 2; 3; 4] (-7) 1 = Ret (1, m') /\ ev (aget (mel m' KTet) 1) = [1; 2; 4; 3].
Proof.
  set (pts := mkArr 5 (fun i => mkPt (V3 (if i =? 2 then 1 else 0) (if i =? 4 then 1 else 0) (if i =? 3 then 1 else 0)) 0 MG_NUL 0 0)).
  exists (set_pts (new_mesh 4 4 (one KTet) (one KTet)) pts).
  assert (W : wf (set_pts (new_mesh 4 4 (one KTet) (one KTet)) pts)).
  { destruct (@new_mesh_ok 4 4 (one KTet) (one KTet) ltac:(lia) (one_ok KTet)) as [W _].
    destruct W. constructor; auto; cbn; lia. }
  set (m := set_pts _ pts) in *.
  assert (V : vol6 (fun i => pc (aget (mpt m) i)) [1; 2; 3; 4] = (-1)%R) by (unfold vol6; cbn; ring).
  split; [exact W|]. split; [reflexivity|]. split; [reflexivity|]. split; [exact V|].
  destruct (@C12_set_tetrahedron m 1 2 3 4 (-7) 1 W) as (ret & m' & E & Hr & H0 & _ & _ & _ & _ & H1 & _).
  { cbn; lia. }
  { repeat constructor; cbn; lia. }
  rewrite V in H0, H1. rewrite Rabs_left in H0 by lra.
  assert (E2 : (EPSD2 < 1)%R).
  { assert (1 < 10 ^ 200)%R by (apply Rlt_pow_R1; [lra|lia]).
    unfold EPSD2. replace 1%R with (/ 1)%R by apply Rinv_1. apply Rinv_lt_contravar; lra. }
  assert (R1 : ret = 1) by (destruct Hr as [->| ->]; [destruct H0 as [H0 _]; specialize (H0 eq_refl); lra|reflexivity]).
  exists m'. split; [rewrite E, R1; reflexivity|]. apply H1; [exact R1|lra].
Qed.

(** ** C41 *)

(** Positions beyond the announced number are refused and nothing changes. *)
Theorem C41_too_large_partial :
  (forall m c r pos, wf m -> mnp m < pos -> Set_vertex m c r pos = Ret (0, m)) /\
  (forall k m vs r pos, wf m -> mcnt m k < pos -> Set_elt k m vs r pos = Ret (0, m)).
Proof.
  split.
  - intros m c r pos W Hp. unfold Set_vertex. destruct (mnp m =? 0); [reflexivity|].
    destruct (mnpmax m <? pos); [reflexivity|]. destruct (Z.ltb_spec (mnp m) pos); [reflexivity|lia].
  - intros k m vs r pos W Hp.
    destruct k; cbn [Set_elt]; unfold Set_tetrahedron, Set_prism, Set_triangle, Set_quadrilateral, Set_edge;
      destruct (mcnt m _ =? 0); try reflexivity;
      try (destruct (mmax m _ <? pos); [reflexivity|]);
      match goal with |- context [mcnt m ?k <? pos] => destruct (Z.ltb_spec (mcnt m k) pos); [reflexivity|lia] end.
Qed.

(** Position zero is accepted without any visible effect, a negative position
    writes outside the array. *)
Theorem C41_nonpositive_refuted : exists m c r,
  wf m /\ (exists m', Set_vertex m c r 0 = Ret (1, m') /\ forall i, 1 <= i <= mnp m -> aget (mpt m') i = aget (mpt m) i) /\
  Set_vertex m c r (-1) = Stuck.
Proof.
  exists (new_mesh 1 1 (fun _ => 0) (fun _ => 0)), (V3 1 2 3), 5.
  split; [apply new_mesh_ok; intros; lia|]. split.
  - eexists. split; [unfold Set_vertex; cbn; reflexivity|]. intros i Hi. cbn. apply upd_other. lia.
  - reflexivity.
Qed.

(** ** C11 *)

Definition rcall_eqb (a b : rcall) : bool :=
  match a, b with
  | RVertex x, RVertex y => x =? y
  | RElt x k, RElt y k' => (x =? y) && kind_eqb k k'
  | _, _ => false
  end.

(** What the user expects of a reading call made after [seen]: the entity whose
    number follows the number of earlier calls for the same entities of the
    same mesh, going round. *)
Definition turn (seen : list rcall) (c : rcall) (n : Z) : Z := Z.of_nat (length (filter (rcall_eqb c) seen)) mod n + 1.
Definition answer (np : Z -> Z) (cnt : Z -> kind -> Z) (w : Z -> view) (seen : list rcall) (c : rcall) : Z * rdata :=
  match c with
  | RVertex x =>
      if np x =? 0 then (0, DV None)
      else let i := turn seen c (np x) in
           (1, DV (Some (w_c (w x) i, w_ref (w x) i, b2z (w_crn (w x) i), b2z (w_req (w x) i))))
  | RElt x k =>
      if cnt x k =? 0 then (0, DE None)
      else let i := turn seen c (cnt x k) in
           (1, DE (Some (we_v (w x) k i, we_ref (w x) k i, b2z (we_rid (w x) k i), b2z (we_req (w x) k i))))
  end.
Fixpoint answers (np : Z -> Z) (cnt : Z -> kind -> Z) (w : Z -> view) (seen h : list rcall) : list (Z * rdata) :=
  match h with
  | [] => []
  | c :: h' => answer np cnt w seen c :: answers np cnt w (c :: seen) h'
  end.

(** Position of a cursor after [c] calls. *)
Definition curs (n cu : Z) (c : nat) : Prop :=
  0 <= cu /\ (0 < n -> cu <= n /\ (if cu =? n then 0 else cu) = Z.of_nat c mod n).

Lemma curs_next n cu c : 0 <= n -> curs n cu c ->
  let i := (if cu =? n then 0 else cu) + 1 in
  (n = 0 -> n < i) /\ (0 < n -> i = Z.of_nat c mod n + 1 /\ 1 <= i <= n) /\ curs n i (S c).
Proof.
  intros Hn [H0 H]. cbv zeta. split; [|split].
  - intros ->. destruct (Z.eqb_spec cu 0); lia.
  - intros Hp. destruct (H Hp) as [H1 H2]. rewrite H2. pose proof (Z.mod_pos_bound (Z.of_nat c) n Hp). lia.
  - split; [destruct (Z.eqb_spec cu n); lia|]. intros Hp. destruct (H Hp) as [H1 H2]. rewrite H2.
    pose proof (Z.mod_pos_bound (Z.of_nat c) n Hp) as B. split; [lia|].
    rewrite Nat2Z.inj_succ. unfold Z.succ. rewrite <- (Z.add_mod_idemp_l (Z.of_nat c) 1 n) by lia.
    destruct (Z.eqb_spec (Z.of_nat c mod n + 1) n) as [E|E].
    + rewrite E. rewrite Z.mod_same by lia. reflexivity.
    + rewrite (Z.mod_small (Z.of_nat c mod n + 1)) by lia. reflexivity.
Qed.

Definition calls (c : rcall) (seen : list rcall) : nat := length (filter (rcall_eqb c) seen).

Lemma rcall_eqb_refl c : rcall_eqb c c = true.
Proof. destruct c; cbn; rewrite ?Z.eqb_refl, ?kind_eqb_refl; reflexivity. Qed.
Lemma rcall_eqb_true a b : rcall_eqb a b = true -> a = b.
Proof.
  destruct a, b; cbn; try discriminate.
  - intros H. apply Z.eqb_eq in H. congruence.
  - intros H. apply andb_prop in H. destruct H as [H1 H2]. apply Z.eqb_eq in H1. apply kind_eqb_true in H2. congruence.
Qed.
Lemma calls_same c seen : calls c (c :: seen) = S (calls c seen).
Proof. unfold calls. cbn [filter]. rewrite rcall_eqb_refl. reflexivity. Qed.
Lemma calls_other c c' seen : c <> c' -> calls c (c' :: seen) = calls c seen.
Proof.
  intros H. unfold calls. cbn [filter]. destruct (rcall_eqb c c') eqn:E; [|reflexivity].
  apply rcall_eqb_true in E. contradiction.
Qed.

(** Prisms and quadrilaterals are the kinds whose cursor is static. *)
Definition static_kind (k : kind) : bool := match k with KPri | KQua => true | _ => false end.

(** State of the cursors of a family of meshes; [px] and [qx] are the meshes
    whose prisms and quadrilaterals are read. *)
Record cursors (np : Z -> Z) (cnt : Z -> kind -> Z) (w : Z -> view) (px qx : Z) (seen : list rcall)
  (g : statics) (ms : Z -> amesh) : Prop := mkCs {
  cs_wf : forall x, wf (ms x);
  cs_obs : forall x, obs (ms x) (w x);
  cs_np : forall x, mnp (ms x) = np x;
  cs_cnt : forall x, mcnt (ms x) = cnt x;
  cs_v : forall x, curs (np x) (mnpi (ms x)) (calls (RVertex x) seen);
  cs_e : forall x k, static_kind k = false -> curs (cnt x k) (mcur (ms x) k) (calls (RElt x k) seen);
  cs_p : curs (cnt px KPri) (st_pri g) (calls (RElt px KPri) seen);
  cs_q : curs (cnt qx KQua) (st_qua g) (calls (RElt qx KQua) seen) }.

Lemma read_step np cnt w px qx seen g ms c :
  cursors np cnt w px qx seen g ms ->
  (forall x, c = RElt x KPri -> x = px) -> (forall x, c = RElt x KQua -> x = qx) ->
  exists g' ms', rexec c g ms = Ret (answer np cnt w seen c, g', ms') /\ cursors np cnt w px qx (c :: seen) g' ms'.
Proof.
  intros [Cw Co Cn Cc Cv Ce Cp Cq] Hp Hq. destruct c as [x|x k].
  - cbn [rexec answer]. unfold Get_vertex.
    destruct (Cw x) as [Wn Wp Wc We Wt Wv]. rewrite (Cn x) in *.
    destruct (@curs_next (np x) (mnpi (ms x)) _ (proj1 Wn) (Cv x)) as (N1 & N2 & N3).
    set (i := (if mnpi (ms x) =? np x then 0 else mnpi (ms x)) + 1) in *. 
    assert (K : cursors np cnt w px qx (RVertex x :: seen) g (upd ms x (set_npi (ms x) i))).
    { constructor; intros.
      - unfold upd. destruct (Z.eqb_spec x0 x) as [->|]; [|apply Cw]. eapply wf_cong; [..|apply Cw]; reflexivity.
      - unfold upd. destruct (Z.eqb_spec x0 x) as [->|]; [|apply Co]. eapply obs_cong; [..|apply Co]; reflexivity.
      - unfold upd. destruct (Z.eqb_spec x0 x) as [->|]; apply Cn.
      - unfold upd. destruct (Z.eqb_spec x0 x) as [->|]; apply Cc.
      - unfold upd. destruct (Z.eqb_spec x0 x) as [->|Hne].
        + rewrite calls_same. exact N3.
        + rewrite calls_other by congruence. apply Cv.
      - rewrite calls_other by congruence. unfold upd. destruct (Z.eqb_spec x0 x) as [->|]; apply Ce; assumption.
      - rewrite calls_other by congruence. exact Cp.
      - rewrite calls_other by congruence. exact Cq. }
    destruct (Z.eqb_spec (np x) 0) as [E0|E0].
    + destruct (Z.ltb_spec (np x) i); [|lia]. cbn [bind]. eexists _, _. split; [reflexivity|exact K].
    + destruct (N2 ltac:(lia)) as [Ei Bi]. destruct (Z.ltb_spec (np x) i); [lia|].
      unfold GetByIdx_vertex. cbn [set_npi mnp mpt]. rewrite (Cn x).
      destruct (Z.ltb_spec i 1); [lia|]. destruct (Z.ltb_spec (np x) i); [lia|]. cbn [orb].
      rewrite rd_ok by lia. cbn [bind]. eexists _, _. split; [|exact K].
      destruct (Co x) as [Oc Or Ok Oq _ _ _ _]. rewrite (Cn x) in *. rewrite Oc, Or, Ok, Oq by lia.
      unfold turn. fold (calls (RVertex x) seen). rewrite <- Ei. reflexivity.
  - cbn [rexec answer]. unfold Get_elt.
    destruct (Cw x) as [Wn Wp Wc We Wt Wv]. rewrite (Cc x) in *. specialize (Wc k). specialize (We k).
    assert (Hc : curs (cnt x k) (cur g (ms x) k) (calls (RElt x k) seen)).
    { destruct k; cbn [cur]; try (apply Ce; reflexivity).
      - rewrite (Hp x eq_refl). exact Cp.
      - rewrite (Hq x eq_refl). exact Cq. }
    destruct (@curs_next (cnt x k) (cur g (ms x) k) _ (proj1 Wc) Hc) as (N1 & N2 & N3).
    set (i := (if cur g (ms x) k =? cnt x k then 0 else cur g (ms x) k) + 1) in *.
    assert (K : cursors np cnt w px qx (RElt x k :: seen) (fst (move g (ms x) k i)) (upd ms x (snd (move g (ms x) k i)))).
    { constructor; intros.
      - unfold upd. destruct (Z.eqb_spec x0 x) as [->|]; [|apply Cw]. destruct k; cbn [move snd]; try apply Cw;
          (eapply wf_cong; [..|apply Cw]; reflexivity).
      - unfold upd. destruct (Z.eqb_spec x0 x) as [->|]; [|apply Co]. destruct k; cbn [move snd]; try apply Co;
          (eapply obs_cong; [..|apply Co]; reflexivity).
      - unfold upd. destruct (Z.eqb_spec x0 x) as [->|]; [|apply Cn]. destruct k; cbn [move snd]; apply Cn.
      - unfold upd. destruct (Z.eqb_spec x0 x) as [->|]; [|apply Cc]. destruct k; cbn [move snd]; apply Cc.
      - rewrite calls_other by congruence. unfold upd. destruct (Z.eqb_spec x0 x) as [->|]; [|apply Cv].
        destruct k; cbn [move snd]; apply Cv.
      - unfold upd. destruct (Z.eqb_spec x0 x) as [->|Hne].
        + destruct (kind_eqb k0 k) eqn:Ek.
          * apply kind_eqb_true in Ek. subst k0. rewrite calls_same.
            destruct k; try discriminate H; cbn [move snd set_cur mcur]; rewrite kind_eqb_refl; exact N3.
          * rewrite calls_other by (intros E; injection E as E; subst; rewrite kind_eqb_refl in Ek; discriminate).
            destruct k; cbn [move snd set_cur mcur]; rewrite ?Ek; apply Ce; assumption.
        + rewrite calls_other by congruence. apply Ce. assumption.
      - destruct k; cbn [move fst st_pri]; try (rewrite calls_other by congruence; exact Cp).
        rewrite <- (Hp x eq_refl). rewrite calls_same. exact N3.
      - destruct k; cbn [move fst st_qua]; try (rewrite calls_other by congruence; exact Cq).
        rewrite <- (Hq x eq_refl). rewrite calls_same. exact N3. }
    destruct (move g (ms x) k i) as [g1 m1] eqn:Em. cbn [fst snd] in K.
    destruct (Z.eqb_spec (cnt x k) 0) as [E0|E0].
    + destruct (Z.ltb_spec (cnt x k) i); [|lia]. cbn [bind]. eexists _, _. split; [reflexivity|exact K].
    + destruct (N2 ltac:(lia)) as [Ei Bi]. destruct (Z.ltb_spec (cnt x k) i); [lia|].
      rewrite rd_ok by lia. cbn [bind]. eexists _, _. split; [|exact K].
      destruct (Co x) as [_ _ _ _ Ov Or Oq Od]. rewrite (Cc x) in *. rewrite Ov, Or, Oq, Od by lia.
      unfold turn. fold (calls (RElt x k) seen). rewrite <- Ei. reflexivity.
Qed.

Lemma read_steps np cnt w px qx h : forall seen g ms,
  cursors np cnt w px qx seen g ms ->
  (forall x, In (RElt x KPri) h -> x = px) -> (forall x, In (RElt x KQua) h -> x = qx) ->
  rrun h g ms = Ret (answers np cnt w seen h).
Proof.
  induction h as [|c h IH]; intros seen g ms C Hp Hq; [reflexivity|].
  destruct (@read_step np cnt w px qx seen g ms c C) as (g' & ms' & E & C').
  - intros x ->. apply Hp. left. reflexivity.
  - intros x ->. apply Hq. left. reflexivity.
  - cbn [rrun answers]. rewrite E. destruct (answer np cnt w seen c). cbn [bind].
    rewrite (IH _ _ _ C'); [reflexivity|..]; intros x Hx; [apply Hp|apply Hq]; right; exact Hx.
Qed.

(** Meshes of any sizes, filled by any histories of setting calls, then read by
    any interleaving of one-by-one reading calls: every call gives the next
    entity of its mesh, provided the prisms of one mesh only, and the
    quadrilaterals of one mesh only, are read. *)
Theorem C11_iteration_partial np npmax cnt max hs ms h px qx :
  (forall x, 0 <= np x <= npmax x) -> (forall x k, 0 <= cnt x k <= max x k) ->
  (forall x, Forall (ok_call (np x) (cnt x)) (hs x)) ->
  (forall x, exists rets, run (hs x) (new_mesh (np x) (npmax x) (cnt x) (max x)) = Ret (rets, ms x)) ->
  (forall x, In (RElt x KPri) h -> x = px) -> (forall x, In (RElt x KQua) h -> x = qx) ->
  rrun h (mkSt 0 0) ms = Ret (answers np cnt (fun x => snd (expects (np x) (cnt x) (hs x) view0)) [] h).
Proof.
  intros Hn Hc Hf Hm Hp Hq.
  assert (Hz : forall n, curs n 0 0).
  { intros n. split; [lia|]. intros Hpos. split; [lia|]. rewrite Z.mod_0_l by lia. destruct (0 =? n); reflexivity. }
  assert (Hz' : forall n, 0 <= n -> curs n n 0).
  { intros n Hn0. split; [lia|]. intros Hpos. split; [lia|]. rewrite Z.eqb_refl. rewrite Z.mod_0_l by lia. reflexivity. }
  apply read_steps with (px := px) (qx := qx); auto.
  assert (K : forall x, wf (ms x) /\ obs (ms x) (snd (expects (np x) (cnt x) (hs x) view0)) /\
     same_size (new_mesh (np x) (npmax x) (cnt x) (max x)) (ms x)).
  { intros x. destruct (@new_mesh_ok (np x) (npmax x) (cnt x) (max x) (Hn x) (Hc x)) as [W O].
    destruct (@steps (np x) (cnt x) (hs x) _ _ W O eq_refl eq_refl (Hf x)) as (m & E & H).
    destruct (Hm x) as [rets E']. rewrite E in E'. injection E' as _ <-. exact H. }
  constructor; intros; try apply K; try apply Hz;
    destruct (K x) as (_ & _ & S1 & S2 & S3 & S4 & S5 & S6); cbn in *.
  - rewrite S5. apply Hz'. apply Hn.
  - rewrite S6. apply Hz'. apply Hc.
Qed.

(** Vertices, tetrahedra, triangles and edges: no restriction. *)
Corollary C11_own_cursor np npmax cnt max hs ms h :
  (forall x, 0 <= np x <= npmax x) -> (forall x k, 0 <= cnt x k <= max x k) ->
  (forall x, Forall (ok_call (np x) (cnt x)) (hs x)) ->
  (forall x, exists rets, run (hs x) (new_mesh (np x) (npmax x) (cnt x) (max x)) = Ret (rets, ms x)) ->
  (forall x, ~ In (RElt x KPri) h /\ ~ In (RElt x KQua) h) ->
  rrun h (mkSt 0 0) ms = Ret (answers np cnt (fun x => snd (expects (np x) (cnt x) (hs x) view0)) [] h).
Proof.
  intros Hn Hc Hf Hm Hs.
  apply C11_iteration_partial with (npmax := npmax) (max := max) (px := 0) (qx := 0); auto;
    intros x Hx; destruct (Hs x); contradiction.
Qed.

(** In particular, reading as many times as there are entities enumerates them
    in order. *)
Corollary C11_enumerates np npmax cnt max h m k :
  0 <= np <= npmax -> (forall k, 0 <= cnt k <= max k) -> Forall (ok_call np cnt) h ->
  (exists rets, run h (new_mesh np npmax cnt max) = Ret (rets, m)) ->
  let w := snd (expects np cnt h view0) in
  rrun (repeat (RElt 0 k) (Z.to_nat (cnt k))) (mkSt 0 0) (fun _ => m) =
  Ret (map (fun i => (1, DE (Some (we_v w k i, we_ref w k i, b2z (we_rid w k i), b2z (we_req w k i))))) (interval 1 (cnt k))).
Proof.
  intros Hn Hc Hf Hm. cbv zeta.
  rewrite (@C11_iteration_partial (fun _ => np) (fun _ => npmax) (fun _ => cnt) (fun _ => max) (fun _ => h) (fun _ => m) _ 0 0); auto.
  2,3: intros x Hx; apply repeat_spec in Hx; congruence.
  f_equal.
  set (w := snd (expects np cnt h view0)).
  assert (G : forall n s, Z.of_nat s + Z.of_nat n <= cnt k ->
    answers (fun _ => np) (fun _ => cnt) (fun _ => w) (repeat (RElt 0 k) s) (repeat (RElt 0 k) n) =
    map (fun i => (1, DE (Some (we_v w k i, we_ref w k i, b2z (we_rid w k i), b2z (we_req w k i))))) (map (fun i => 1 + Z.of_nat i) (seq s n))).
  { induction n as [|n IH]; intros s Hs; [reflexivity|]. cbn [repeat answers seq map]. f_equal.
    - cbn [answer]. destruct (Z.eqb_spec (cnt k) 0); [lia|]. unfold turn.
      assert (L : length (filter (rcall_eqb (RElt 0 k)) (repeat (RElt 0 k) s)) = s).
      { clear. induction s as [|s IH]; [reflexivity|]. cbn [repeat filter]. rewrite rcall_eqb_refl. cbn [length]. congruence. }
      rewrite L, Z.mod_small by lia. replace (Z.of_nat s + 1) with (1 + Z.of_nat s) by lia. reflexivity.
    - apply (IH (S s)). lia. }
  apply (G (Z.to_nat (cnt k)) O). specialize (Hc k). lia.
Qed.

(** Two meshes with three and two prisms read alternately: the first prism read
    in the second mesh is its second one. *)
Theorem C11_two_meshes_refuted : exists (ms : Z -> amesh) h,
  h = [RElt 1 KPri; RElt 2 KPri] /\
  (forall x, exists cnt hs rets, Forall (ok_call 6 cnt) hs /\ run hs (new_mesh 6 6 cnt cnt) = Ret (rets, ms x) /\
             0 < cnt KPri) /\
  exists d1 e, rrun h (mkSt 0 0) ms = Ret [d1; (1, DE (Some e))] /\
    fst (fst (fst e)) = ev (aget (mel (ms 2) KPri) 2) /\
    fst (fst (fst e)) <> ev (aget (mel (ms 2) KPri) 1).
Proof.
  set (cnt := fun (n : Z) k => match k with KPri => n | _ => 0 end).
  set (hs := [CElt KPri [1; 2; 3; 4; 5; 6] 0 1; CElt KPri [6; 5; 4; 3; 2; 1] 0 2]).
  assert (HR : forall n, (n = 2 \/ n = 3) -> exists m, run hs (new_mesh 6 6 (cnt n) (cnt n)) = Ret ([1; 1], m) /\
     wf m /\ mcnt m KPri = n /\
     ev (aget (mel m KPri) 1) = [1; 2; 3; 4; 5; 6] /\ ev (aget (mel m KPri) 2) = [6; 5; 4; 3; 2; 1] /\
     Forall (ok_call 6 (cnt n)) hs).
  { intros n Hn.
    assert (Hok : Forall (ok_call 6 (cnt n)) hs) by (unfold hs; repeat constructor; cbn; lia).
    assert (Hc : forall k, 0 <= cnt n k <= cnt n k) by (intros k; destruct k; cbn; lia).
    destruct (@new_mesh_ok 6 6 (cnt n) (cnt n) ltac:(lia) Hc) as [W O].
    destruct (@steps 6 (cnt n) hs _ _ W O eq_refl eq_refl Hok) as (m & E & W' & O' & (_ & _ & S3 & _)).
    cbn [new_mesh mcnt] in S3.
    exists m.
    assert (E12 : (cnt n KPri <? 1) = false /\ (cnt n KPri <? 2) = false).
    { unfold cnt. split; apply Z.ltb_ge; lia. }
    destruct E12 as [E1 E2].
    assert (EX : expects 6 (cnt n) hs view0 = ([1; 1], snd (expects 6 (cnt n) hs view0))).
    { unfold hs. cbn [expects expect]. rewrite E1, E2. reflexivity. }
    split; [rewrite E; rewrite EX; reflexivity|]. split; [exact W'|]. split; [rewrite S3; reflexivity|].
    destruct O' as [_ _ _ _ Ov _ _ _]. rewrite S3 in Ov.
    rewrite !Ov by (unfold cnt; lia).
    unfold hs. cbn [expects expect]. rewrite E1, E2. cbn [snd]. split; [reflexivity|]. split; [reflexivity|exact Hok]. }
  destruct (HR 3 ltac:(auto)) as (m1 & E1 & W1 & C1 & A1 & B1 & K1).
  destruct (HR 2 ltac:(auto)) as (m2 & E2 & W2 & C2 & A2 & B2 & K2).
  exists (fun x => if x =? 1 then m1 else m2), [RElt 1 KPri; RElt 2 KPri].
  split; [reflexivity|]. split.
  { intros x. destruct (x =? 1).
    - exists (cnt 3), hs, [1; 1]. split; [exact K1|]. split; [exact E1|reflexivity].
    - exists (cnt 2), hs, [1; 1]. split; [exact K2|]. split; [exact E2|reflexivity]. }
  cbn [Z.eqb Pos.eqb]. rewrite A2, B2.
  destruct W1 as [_ _ Wc1 We1 _ _]. destruct W2 as [_ _ Wc2 We2 _ _].
  specialize (Wc1 KPri). specialize (We1 KPri). specialize (Wc2 KPri). specialize (We2 KPri).
  assert (G1 : exists d, Get_elt KPri (mkSt 0 0) m1 = Ret (1, d, mkSt 1 0, m1)).
  { unfold Get_elt. cbn [cur st_pri]. rewrite C1. change (0 =? 3) with false. cbv iota. change (0 + 1) with 1.
    cbn [move st_qua]. change (3 <? 1) with false. cbv iota. rewrite rd_ok by lia. cbn [bind]. eexists. reflexivity. }
  destruct G1 as [d G1].
  cbn [rrun rexec]. change (1 =? 1) with true. cbv iota. rewrite G1. cbn [bind].
  change (upd (fun x => if x =? 1 then m1 else m2) 1 m1 2) with m2.
  unfold Get_elt at 1. cbn [cur st_pri]. rewrite C2. change (1 =? 2) with false. cbv iota. change (1 + 1) with 2.
  cbn [move st_qua]. change (2 <? 2) with false. cbv iota. rewrite rd_ok by lia. cbn [bind].
  eexists _, _. split; [reflexivity|]. cbn [fst]. rewrite B2. split; [reflexivity|discriminate].
Qed.

(** Two edges read three times, with a triangle read in between. *)
Example C11_case : exists cnt h m,
  Forall (ok_call 3 cnt) h /\ run h (new_mesh 3 3 cnt cnt) = Ret ([1; 1; 1], m) /\
  rrun [RElt 0 KEdg; RElt 0 KTri; RElt 0 KEdg; RElt 0 KEdg] (mkSt 0 0) (fun _ => m) =
    Ret [(1, DE (Some ([1; 2], 8, 0, 0))); (1, DE (Some ([1; 2; 3], 5, 0, 0)));
         (1, DE (Some ([2; 3], 9, 0, 0))); (1, DE (Some ([1; 2], 8, 0, 0)))].
Proof.
  set (cnt := fun k => match k with KEdg => 2 | KTri => 1 | _ => 0 end).
  set (h := [CElt KEdg [1; 2] 8 1; CElt KEdg [2; 3] 9 2; CElt KTri [1; 2; 3] 5 1]).
  assert (Hok : Forall (ok_call 3 cnt) h) by (unfold h; repeat constructor; cbn; lia || discriminate).
  assert (Hc : forall k, 0 <= cnt k <= cnt k) by (intros k; destruct k; cbn; lia).
  destruct (@new_mesh_ok 3 3 cnt cnt ltac:(lia) Hc) as [W O].
  destruct (@steps 3 cnt h _ _ W O eq_refl eq_refl Hok) as (m & E & _).
  exists cnt, h, m. split; [exact Hok|]. split; [exact E|].
  rewrite (@C11_own_cursor (fun _ => 3) (fun _ => 3) (fun _ => cnt) (fun _ => cnt) (fun _ => h)); auto.
  - intros; lia.
  - intros _. eexists. exact E.
  - intros x. split; intros K; cbn in K; intuition discriminate.
Qed.

Print Assumptions C10_vertices.
Print Assumptions C10_elements.
Print Assumptions C10_prisms_partial.
Print Assumptions C10_prisms_refuted.
Print Assumptions C12_set_tetrahedron.
Print Assumptions C41_too_large_partial.
Print Assumptions C41_nonpositive_refuted.
Print Assumptions C11_iteration_partial.
Print Assumptions C11_own_cursor.
Print Assumptions C11_enumerates.
Print Assumptions C11_two_meshes_refuted.
