(** What MMG3D_saveMesh writes: the sections of a valid mesh.  Used by [PropsIo]. *)
From Coq Require Import String ZArith List Lia Bool FinFun.
From Verif Require Import CBase IoModel IoScan IoLoad IoBody.
Import ListNotations.
Open Scope Z_scope.
Open Scope list_scope.

Set Implicit Arguments.

Lemma filter_map_comm A B (f : A -> B) (P : B -> bool) l :
  filter P (map f l) = map f (filter (fun x => P (f x)) l).
Proof. induction l as [|x l IH]; [reflexivity|]. cbn. destruct (P (f x)); cbn; rewrite IH; reflexivity. Qed.

Lemma filter_filter A (P Q : A -> bool) l : filter P (filter Q l) = filter (fun x => Q x && P x) l.
Proof.
  induction l as [|x l IH]; [reflexivity|]. cbn. destruct (Q x); cbn; [|assumption].
  destruct (P x); rewrite IH; reflexivity.
Qed.

Lemma filter_all A (P : A -> bool) l : (forall x, In x l -> P x = true) -> filter P l = l.
Proof.
  induction l as [|x l IH]; intros H; [reflexivity|]. cbn. rewrite (H x) by (left; reflexivity).
  f_equal. apply IH. intros; apply H. right. assumption.
Qed.

Lemma zs_In k n : In k (zs n) <-> 1 <= k <= n.
Proof.
  unfold zs. rewrite in_map_iff. split.
  - intros (i & <- & H). apply in_seq in H. lia.
  - intros H. exists (Z.to_nat k). split; [lia|]. apply in_seq. lia.
Qed.

Lemma zs_NoDup n : NoDup (zs n).
Proof.
  unfold zs. apply Injective_map_NoDup; [|apply seq_NoDup]. intros a b H. lia.
Qed.

Lemma zs_nth n i k : nth_error (zs n) i = Some k <-> (i < Z.to_nat n)%nat /\ k = Z.of_nat i + 1.
Proof.
  unfold zs. rewrite nth_error_map. split.
  - destruct (nth_error (seq 1 (Z.to_nat n)) i) as [j|] eqn:E; [|discriminate]. intros [= <-].
    assert (Hi : (i < Z.to_nat n)%nat).
    { apply nth_error_lt in E. rewrite seq_length in E. exact E. }
    apply nth_error_nth with (d := O) in E. rewrite seq_nth in E by exact Hi. split; [exact Hi|lia].
  - intros [Hi ->]. rewrite nth_error_nth' with (d := O) by (rewrite seq_length; exact Hi).
    rewrite seq_nth by exact Hi. cbn [option_map]. f_equal. lia.
Qed.

Lemma zs_length n : length (zs n) = Z.to_nat n.
Proof. unfold zs. rewrite map_length, seq_length. reflexivity. Qed.

Lemma mapM_ok A B (f : A -> outcome B) (g : A -> B) l :
  (forall x, In x l -> f x = Ret (g x)) -> mapM f l = Ret (map g l).
Proof.
  induction l as [|x l IH]; intros H; [reflexivity|]. cbn.
  rewrite (H x) by (left; reflexivity). cbn. rewrite IH by (intros; apply H; right; assumption).
  reflexivity.
Qed.

Section Numbers.
Variable D : Type.
Notation pt := (pt D).

Lemma number_from l : forall (a : arr pt) n, NoDup l ->
  let U := filter (fun k => vok (aget a k)) l in
  let r := fold_left (@number1 D) l (a, n) in
  snd r = n + zlen U /\ alen (fst r) = alen a /\
  (forall i k, nth_error U i = Some k ->
     aget (fst r) k = set_tmp (n + Z.of_nat i + 1) (aget a k)) /\
  (forall k, ~ In k U -> aget (fst r) k = aget a k).
Proof.
  induction l as [|x l IH]; intros a n ND.
  - cbn. unfold zlen. cbn. split; [lia|]. split; [reflexivity|]. split; [intros [|]; discriminate|reflexivity].
  - inversion ND as [|? ? Hx NDl]; subst. cbn [fold_left filter number1].
    destruct (vok (aget a x)) eqn:V.
    + set (a1 := mkArr (alen a) (upd (aget a) x (set_tmp (n + 1) (aget a x)))).
      assert (EU : filter (fun k => vok (aget a1 k)) l = filter (fun k => vok (aget a k)) l).
      { apply filter_ext_in. intros k Hk. unfold a1. cbn [aget].
        rewrite upd_other by (intros ->; contradiction). reflexivity. }
      destruct (IH a1 (n + 1) NDl) as (S1 & S2 & S3 & S4). rewrite EU in *. cbv zeta.
      split; [rewrite S1; unfold zlen; cbn [length]; lia|]. split; [exact S2|]. split.
      * intros [|i] k H.
        -- injection H as <-. rewrite S4 by (intros H; apply filter_In in H; tauto).
           unfold a1. cbn [aget]. rewrite upd_same. f_equal. lia.
        -- cbn in H. rewrite (S3 _ _ H). unfold a1. cbn [aget].
           rewrite upd_other.
           ++ f_equal. lia.
           ++ intros ->. apply nth_error_In in H. apply filter_In in H. tauto.
      * intros k Hk. cbn in Hk. rewrite S4 by tauto. unfold a1. cbn [aget].
        rewrite upd_other by (intros ->; tauto). reflexivity.
    + apply IH. exact NDl.
Qed.

Lemma flags_ok l : forall (a : arr pt), (forall v, In v l -> 0 <= v < alen a) ->
  exists a', flags l a = Ret a' /\ alen a' = alen a /\
  forall k, aget a' k = if mem k l then set_flag (aget a k) else aget a k.
Proof.
  induction l as [|v l IH]; intros a H.
  - exists a. repeat split.
  - pose proof (H v (or_introl eq_refl)) as B. cbn [flags]. unfold flag1.
    rewrite (rd_in _ B). cbn [bind]. rewrite (wr_in _ _ B). cbn [bind].
    destruct (IH (mkArr (alen a) (upd (aget a) v (set_flag (aget a v))))) as (a' & E & L & V).
    { intros v' Hv'. apply H. right. exact Hv'. }
    exists a'. split; [exact E|]. split; [exact L|]. intros k. rewrite V, mem_cons. cbn [aget].
    destruct (Z.eqb_spec k v) as [->|Ne].
    + rewrite upd_same. cbn [orb]. destruct (mem v l); reflexivity.
    + rewrite upd_other by assumption. reflexivity.
Qed.

Lemma erow_ok (a : arr pt) e : (forall v, In v (e_v e) -> 0 <= v < alen a) ->
  erow a e = Ret (vrow D (map (fun v => p_tmp (aget a v)) (e_v e), e_ref e)).
Proof.
  intros H. unfold erow. rewrite mapM_ok with (g := fun v => TI (p_tmp (aget a v))).
  - cbn [bind]. unfold vrow. cbn [fst snd]. rewrite map_map. reflexivity.
  - intros v Hv. rewrite (rd_in _ (H v Hv)). reflexivity.
Qed.

End Numbers.

(** Ranks among the valid elements. *)
Lemma ranked_spec P l : forall n,
  ranked P n l = map (fun i => n + Z.of_nat i + 1)
                     (filter (fun i => P (nth i (filter eok l) (mkElt [] 0 [])))
                             (seq 0 (length (filter eok l)))).
Proof.
  induction l as [|e l IH]; intros n; [reflexivity|]. cbn [ranked filter].
  destruct (eok e); [|apply IH]. cbn [length seq filter].
  change (nth 0 (e :: filter eok l) (mkElt [] 0 [])) with e.
  assert (E : map (fun i => n + Z.of_nat i + 1)
     (filter (fun i => P (nth i (e :: filter eok l) (mkElt [] 0 []))) (seq 1 (length (filter eok l))))
     = ranked P (n + 1) l).
  { rewrite IH, <- seq_shift, filter_map_comm, map_map. apply map_ext_in. intros i _. lia. }
  destruct (P e); cbn [map]; rewrite E; [|reflexivity]. f_equal. lia.
Qed.

Lemma ranked_mem P l i e : nth_error (filter eok l) i = Some e ->
  mem (Z.of_nat i + 1) (ranked P 0 l) = P e.
Proof.
  intros H. rewrite ranked_spec. apply eq_true_iff_eq. rewrite mem_In, in_map_iff. split.
  - intros (j & E & Hj). assert (j = i) by lia. subst j. apply filter_In in Hj. destruct Hj as [_ Hj].
    rewrite (nth_error_nth _ _ _ H) in Hj. exact Hj.
  - intros HP. exists i. split; [lia|]. apply filter_In. split.
    + apply in_seq. pose proof (nth_error_lt _ _ H). lia.
    + rewrite (nth_error_nth _ _ _ H). exact HP.
Qed.

Lemma ranked_pos P l i : In i (ranked P 0 l) -> 0 <= i.
Proof. rewrite ranked_spec, in_map_iff. intros (j & <- & _). lia. Qed.

Lemma ranked_len P l : forall n, zlen (ranked P n l) = count P (filter eok l).
Proof.
  unfold zlen, count.
  induction l as [|e l IH]; intros n; [reflexivity|]. cbn [ranked filter].
  destruct (eok e); [|apply IH]. cbn [filter].
  destruct (P e); cbn [length]; rewrite ?Nat2Z.inj_succ, IH; reflexivity.
Qed.

(** Numbers of the slots that satisfy [P]. *)
Lemma raw_mem P n (a : arr elt) i e : nth_error (elts n a) i = Some e ->
  mem (Z.of_nat i + 1) (filter (fun k => P (aget a k)) (zs n)) = P e.
Proof.
  unfold elts. rewrite nth_error_map. destruct (nth_error (zs n) i) as [k|] eqn:E; [|discriminate].
  intros [= <-]. apply zs_nth in E. destruct E as [Hi ->]. apply eq_true_iff_eq.
  rewrite mem_In, filter_In, zs_In. split; [tauto|]. intros HP. split; [lia|exact HP].
Qed.

Lemma raw_len P n (a : arr elt) : zlen (filter (fun k => P (aget a k)) (zs n)) = count P (elts n a).
Proof. unfold zlen, count, elts. rewrite filter_map_comm, map_length. reflexivity. Qed.

Section Save.
Variable D : Type.
Variable pr : D -> D.
Notation V3 := (D * D * D)%type.
Notation tok := (tok D).
Notation pt := (pt D).
Notation mesh := (mesh D).
Notation sec := (sec D).
Notation content := (content D).

(** The sections of a content.  [on] tells whether the normals are written, [nn],
    [nr] and [nat] are those of the mesh, [ntg], [tg] and [tgat] the tangents. *)
Definition sect (c : content) (kw : string) (cd : Z) (w : Z) (asc : bool) (b : bool) (k : key) : sec :=
  mkSec kw cd (b && negb (zlen (rows c k) =? 0)) w asc (zlen (rows c k)) (rows c k).

Definition layout (on : bool) (nn : Z) (nr nat : list (list tok)) (ntg : Z)
  (tg tgat : list (list tok)) (c : content) : list sec :=
  let t := negb (zlen (c_tri c) =? 0) in
  let q := negb (zlen (c_quad c) =? 0) in
  let a := negb (zlen (c_edge c) =? 0) in
  [ mkSec "Vertices"%string 4 true 7 false (zlen (rows c KVert)) (rows c KVert);
    sect c "Corners"%string 13 1 false true KCor;
    sect c "RequiredVertices"%string 15 1 false true KReqV;
    sect c "ParallelVertices"%string 0 1 true true KParV;
    mkSec "Tetrahedra"%string 8 true 5 false (zlen (rows c KTet)) (rows c KTet);
    sect c "RequiredTetrahedra"%string 12 1 false true KReqE;
    sect c "ParallelTetrahedra"%string 0 1 true true KParE;
    sect c "Prisms"%string 9 7 false true KPri;
    mkSec "Normals"%string 60 on 6 false nn nr;
    mkSec "NormalAtVertices"%string 20 on 2 false nn nat;
    mkSec "Tangents"%string 59 (on && negb (ntg =? 0)) 6 false ntg tg;
    mkSec "TangentAtVertices"%string 61 (on && negb (ntg =? 0)) 2 false ntg tgat;
    sect c "Triangles"%string 6 4 false true KTri;
    sect c "RequiredTriangles"%string 17 1 false t KReqT;
    sect c "ParallelTriangles"%string 0 1 true t KParT;
    sect c "Quadrilaterals"%string 7 5 false true KQuad;
    sect c "RequiredQuadrilaterals"%string 18 1 false q KReqQ;
    sect c "ParallelQuadrilaterals"%string 0 1 true q KParQ;
    sect c "Edges"%string 5 3 false true KEdge;
    sect c "Ridges"%string 14 1 false a KRid;
    sect c "RequiredEdges"%string 16 1 false a KReqA;
    sect c "ParallelEdges"%string 0 1 true a KParA ].

(** ** The content of a mesh *)

Definition used_vertices (m : mesh) : list Z := filter (fun k => vok (aget (m_pt m) k)) (zs (m_np m)).
Definition numbered (m : mesh) : arr pt := fst (number (m_np m) (m_pt m)).
Definition rank (m : mesh) (v : Z) : Z := p_tmp (aget (numbered m) v).
Definition live (n : Z) (a : arr elt) : list elt := filter eok (elts n a).

Definition vmarked (m : mesh) (b : Z) : list Z :=
  map (rank m) (filter (fun k => has (p_tag (aget (m_pt m) k)) b) (used_vertices m)).
Definition renum (m : mesh) (e : elt) : list Z * Z := (map (rank m) (e_v e), e_ref e).
Definition slots (b : Z) (n : Z) (a : arr elt) : list Z :=
  filter (fun k => marked b (aget a k)) (zs n).

(** The vertex belongs to a tetrahedron. *)
Definition in_tet (m : mesh) (k : Z) : bool := mem k (concat (map e_v (live (m_ne m) (m_tet m)))).

Definition smooth (m : mesh) (k : Z) : bool :=
  let t := p_tag (aget (m_pt m) k) in
  in_tet m k && negb (MG_SIN t) && (has t MG_BDY && (negb (has t MG_GEO) || has t MG_NOM)).

Definition normals (m : mesh) : list Z :=
  if m_xp m =? 0 then [] else filter (smooth m) (used_vertices m).

Fixpoint count_from (n : Z) (l : list Z) : list (Z * Z) :=
  match l with [] => [] | x :: r => (x, n + 1) :: count_from (n + 1) r end.

Definition content_of (m : mesh) : content :=
  let tets := elts (m_ne m) (m_tet m) in
  mkContent
    (map (fun k => (p_c (aget (m_pt m) k), Z.abs (p_ref (aget (m_pt m) k)))) (used_vertices m))
    (vmarked m MG_REQ) (vmarked m MG_PARBDY) (vmarked m MG_CRN)
    (map (renum m) (elts (m_nt m) (m_tri m)))
    (slots MG_REQ (m_nt m) (m_tri m)) (slots MG_PARBDY (m_nt m) (m_tri m))
    (map (renum m) (live (m_nq m) (m_quad m)))
    (slots MG_REQ (m_nq m) (m_quad m)) (slots MG_PARBDY (m_nq m) (m_quad m))
    (map (renum m) (elts (m_na m) (m_edge m)))
    (slots MG_GEO (m_na m) (m_edge m)) (slots MG_REQ (m_na m) (m_edge m))
    (slots MG_PARBDY (m_na m) (m_edge m))
    (map (renum m) (filter eok tets))
    (ranked (marked MG_REQ) 0 tets) (ranked (marked MG_PARBDY) 0 tets)
    (map (renum m) (live (m_npr m) (m_pri m)))
    (map (fun k => aget (m_xn m) (p_xp (aget (m_pt m) k))) (normals m))
    (count_from 0 (map (rank m) (normals m))).

(** A mesh that can be saved: the elements in use have vertices in use. *)
Record valid (m : mesh) : Prop := mkValid
  { va_np : 0 <= m_np m < alen (m_pt m);
    va_ne : 0 <= m_ne m < alen (m_tet m);
    va_npr : 0 <= m_npr m < alen (m_pri m);
    va_nt : 0 <= m_nt m /\ (m_nt m = 0 \/ m_nt m < alen (m_tri m));
    va_nq : 0 <= m_nq m /\ (m_nq m = 0 \/ m_nq m < alen (m_quad m));
    va_na : 0 <= m_na m /\ (m_na m = 0 \/ m_na m < alen (m_edge m));
    va_tet : forall e, In e (live (m_ne m) (m_tet m)) ->
      length (e_v e) = 4%nat /\ forall v, In v (e_v e) -> In v (used_vertices m);
    va_pri : forall e, In e (live (m_npr m) (m_pri m)) ->
      length (e_v e) = 6%nat /\ forall v, In v (e_v e) -> In v (used_vertices m);
    va_tri : forall e, In e (elts (m_nt m) (m_tri m)) ->
      length (e_v e) = 3%nat /\ forall v, In v (e_v e) -> In v (used_vertices m);
    va_quad : forall e, In e (elts (m_nq m) (m_quad m)) ->
      eok e = true /\ length (e_v e) = 4%nat /\ forall v, In v (e_v e) -> In v (used_vertices m);
    va_edge : forall e, In e (elts (m_na m) (m_edge m)) ->
      length (e_v e) = 2%nat /\ forall v, In v (e_v e) -> In v (used_vertices m);
    va_slot0 : forall b, marked b (aget (m_tri m) 0) = false /\ marked b (aget (m_quad m) 0) = false;
    va_xn : forall k, In k (normals m) -> 0 <= p_xp (aget (m_pt m) k) < alen (m_xn m) }.

Lemma used_In (m : mesh) k : In k (used_vertices m) <-> 1 <= k <= m_np m /\ vok (aget (m_pt m) k) = true.
Proof. unfold used_vertices. rewrite filter_In, zs_In. tauto. Qed.

Lemma used_NoDup (m : mesh) : NoDup (used_vertices m).
Proof. apply NoDup_filter, zs_NoDup. Qed.

Lemma rank_nth (m : mesh) i k : nth_error (used_vertices m) i = Some k -> rank m k = Z.of_nat i + 1.
Proof.
  intros H. destruct (@number_from D (zs (m_np m)) (m_pt m) 0 (zs_NoDup _)) as (_ & _ & S & _).
  unfold rank, numbered, number. rewrite (S _ _ H). cbn. lia.
Qed.

Lemma rank_inj (m : mesh) k k' : In k (used_vertices m) -> In k' (used_vertices m) ->
  rank m k = rank m k' -> k = k'.
Proof.
  intros H H' E. apply In_nth_error in H. apply In_nth_error in H'.
  destruct H as [i H], H' as [i' H']. rewrite (rank_nth _ _ H), (rank_nth _ _ H') in E.
  assert (i = i') by lia. congruence.
Qed.

Lemma rank_range (m : mesh) k : In k (used_vertices m) -> 1 <= rank m k <= zlen (used_vertices m).
Proof.
  intros H. apply In_nth_error in H. destruct H as [i H]. rewrite (rank_nth _ _ H).
  pose proof (nth_error_lt _ _ H). unfold zlen. lia.
Qed.

Lemma sections_ok bin m : valid m ->
  exists nn nr nat ntg tg tgat,
  sections bin m = Ret (layout (negb (m_xp m =? 0)) nn nr nat ntg tg tgat (content_of m)) /\
  nr = rows (content_of m) KNor /\ (forall r, In r nat -> exists i j, r = [TI i; TI j]) /\
  (m_xp m <> 0 -> nn = zlen nr /\ nat = rows (content_of m) KNat) /\
  ntg = zlen tg /\ ntg = zlen tgat /\ nn = zlen nat /\
  (forall r, In r tg -> exists v, r = v3 v) /\ (forall r, In r tgat -> exists i j, r = [TI i; TI j]).
Proof.
  intros V. unfold sections. cbv zeta.
  destruct (@number_from D (zs (m_np m)) (m_pt m) 0 (zs_NoDup _)) as (N1 & N2 & N3 & N4).
  fold (used_vertices m) in N1, N3, N4. fold (number (m_np m) (m_pt m)) in N1, N2, N3, N4.
  destruct V as [Vnp Vne Vnpr Vnt Vnq Vna Vtet Vpri Vtri Vquad Vedge Vs0 Vxn].
  rewrite (proj2 (Z.ltb_lt _ _) (proj2 Vnp)). cbn [c_assert bind].
  assert (EN : number (m_np m) (m_pt m) = (numbered m, zlen (used_vertices m))).
  { unfold numbered. destruct (number (m_np m) (m_pt m)) as [a n]. cbn in *. f_equal. lia. }
  rewrite EN. fold (numbered m) in N2, N3, N4.
  assert (VK : forall k, vok (aget (numbered m) k) = vok (aget (m_pt m) k) /\
                 p_tag (aget (numbered m) k) = p_tag (aget (m_pt m) k) /\
                 p_c (aget (numbered m) k) = p_c (aget (m_pt m) k) /\
                 p_n (aget (numbered m) k) = p_n (aget (m_pt m) k) /\
                 p_xp (aget (numbered m) k) = p_xp (aget (m_pt m) k) /\
                 p_ref (aget (numbered m) k) = p_ref (aget (m_pt m) k)).
  { intros k. destruct (In_dec Z.eq_dec k (used_vertices m)) as [H|H].
    - apply In_nth_error in H. destruct H as [i H]. rewrite (N3 _ _ H). repeat split.
    - rewrite (N4 _ H). repeat split. }
  assert (EP : filter (@vok D) (map (aget (numbered m)) (zs (m_np m))) = map (aget (numbered m)) (used_vertices m)).
  { rewrite filter_map_comm. f_equal. apply filter_ext. intros k. apply VK. }
  rewrite EP.
  assert (EM : forall b, filter (fun p => has (p_tag p) b) (map (aget (numbered m)) (used_vertices m))
     = map (aget (numbered m)) (filter (fun k => has (p_tag (aget (m_pt m) k)) b) (used_vertices m))).
  { intros b. rewrite filter_map_comm. f_equal. apply filter_ext. intros k.
    destruct (VK k) as (_ & -> & _). reflexivity. }
  rewrite !EM.
  rewrite (proj2 (Z.ltb_lt _ _) (proj2 Vne)). cbn [c_assert bind].
  assert (RU : forall v, In v (used_vertices m) -> 0 <= v < alen (numbered m)).
  { intros v Hv. apply used_In in Hv. lia. }
  destruct (flags_ok (concat (map e_v (filter eok (elts (m_ne m) (m_tet m))))) (numbered m)) as (a2 & E2 & L2 & V2).
  { intros v Hv. apply RU. apply in_concat in Hv. destruct Hv as (x & Hx & Hv).
    apply in_map_iff in Hx. destruct Hx as (e & <- & He). apply (Vtet e He). exact Hv. }
  rewrite E2. cbn [bind].
  assert (RT : forall v, p_tmp (aget a2 v) = rank m v).
  { intros v. rewrite V2. unfold rank. destruct (mem v _); reflexivity. }
  assert (ER : forall l, (forall e, In e l -> forall v, In v (e_v e) -> In v (used_vertices m)) ->
    mapM (erow a2) l = Ret (map (@vrow D) (map (renum m) l))).
  { intros l Hl. rewrite mapM_ok with (g := fun e => vrow D (renum m e)).
    - rewrite map_map. reflexivity.
    - intros e He. rewrite erow_ok.
      + unfold renum. f_equal. f_equal. f_equal. apply map_ext. exact RT.
      + intros v Hv. rewrite L2. apply RU. eapply Hl; eassumption. }
  rewrite ER by (intros e He; apply (Vtet e He)). cbn [bind].
  rewrite (proj2 (Z.ltb_lt _ _) (proj2 Vnpr)). cbn [c_assert bind].
  rewrite ER by (intros e He; apply (Vpri e He)). cbn [bind].
  assert (W2 : forall k, In k (used_vertices m) \/ ~ In k (used_vertices m)) by
    (intros k; destruct (In_dec Z.eq_dec k (used_vertices m)); tauto).
  set (pn := filter (@with_normal D) (map (aget a2) (zs (m_np m)))).
  set (ptg := filter (@with_tangent D) (map (aget a2) (zs (m_np m)))).
  assert (EPN : pn = map (aget a2) (filter (smooth m) (used_vertices m))).
  { unfold pn, used_vertices. rewrite filter_map_comm, filter_filter. f_equal. apply filter_ext_in.
    intros k Hk. unfold with_normal, smooth, in_tet, live. rewrite V2.
    destruct (VK k) as (K1 & K2 & _).
    destruct (vok (aget (m_pt m) k)) eqn:VV.
    - assert (Hu : In k (used_vertices m)) by (apply used_In; apply zs_In in Hk; tauto).
      apply In_nth_error in Hu. destruct Hu as [i Hu].
      destruct (mem k _).
      + assert (Q : vok (set_flag (aget (numbered m) k)) = true) by exact K1. rewrite Q.
        cbn [negb orb set_flag p_flag p_tag andb]. rewrite K2.
        destruct (MG_SIN _); reflexivity.
      + rewrite K1. rewrite (N3 _ _ Hu). cbn [negb orb set_tmp p_flag p_tag andb]. reflexivity.
    - assert (Q : vok (if mem k (concat (map e_v (filter eok (elts (m_ne m) (m_tet m)))))
          then set_flag (aget (numbered m) k) else aget (numbered m) k) = false).
      { destruct (mem k _); exact K1. }
      rewrite Q. reflexivity. }
  assert (EL : (if negb (m_xp m =? 0) then mapM (fun p => n <- rd (m_xn m) (p_xp p);; Ret (v3 n)) pn else Ret [])
    = Ret (rows (content_of m) KNor)).
  { cbn [rows content_of c_nor]. unfold normals in *. destruct (m_xp m =? 0); [reflexivity|]. cbn [negb].
    rewrite EPN. rewrite mapM_ok with (g := fun p => v3 (aget (m_xn m) (p_xp p))).
    - rewrite !map_map. f_equal. apply map_ext. intros k. rewrite V2.
      destruct (VK k) as (_ & _ & _ & _ & K5 & _). destruct (mem k _); cbn [set_flag p_xp]; rewrite K5; reflexivity.
    - intros p Hp. apply in_map_iff in Hp. destruct Hp as (k & <- & Hk). rewrite rd_in; [reflexivity|].
      replace (p_xp (aget a2 k)) with (p_xp (aget (m_pt m) k)); [apply Vxn; exact Hk|].
      rewrite V2. destruct (VK k) as (_ & _ & _ & _ & K5 & _). destruct (mem k _); cbn [set_flag p_xp]; rewrite K5; reflexivity. }
  rewrite EL. cbn [bind].
  assert (AT : forall n (a : arr elt), 0 <= n /\ (n = 0 \/ n < alen a) -> (n =? 0) || (n <? alen a) = true).
  { intros n a [_ [-> |H]]; [reflexivity|]. rewrite (proj2 (Z.ltb_lt _ _) H). apply orb_true_r. }
  rewrite (AT _ _ Vnt). cbn [c_assert bind].
  rewrite ER by (intros e He; apply (Vtri e He)). cbn [bind].
  rewrite (AT _ _ Vnq). cbn [c_assert bind].
  assert (EQ : filter eok (elts (m_nq m) (m_quad m)) = elts (m_nq m) (m_quad m)).
  { apply filter_all. intros e He. apply (Vquad e He). }
  rewrite ER by (intros e He; apply filter_In in He; apply (Vquad e (proj1 He))). cbn [bind].
  rewrite (AT _ _ Vna). cbn [c_assert bind].
  rewrite ER by (intros e He; apply (Vedge e He)). cbn [bind].
  assert (ZL : forall n (a : arr elt), 0 <= n -> zlen (elts n a) = n).
  { intros n a Hn. unfold zlen, elts. rewrite map_length, zs_length. lia. }
  assert (RAW : forall b n (a : arr elt), marked b (aget a 0) = false ->
    filter (fun k => marked b (aget a k)) (0 :: zs n) = slots b n a).
  { intros b n a H0. cbn [filter]. rewrite H0. reflexivity. }
  exists (zlen pn), (rows (content_of m) KNor), (counted 0 pn), (zlen ptg),
    (map (fun p => v3 (p_n p)) ptg), (if bin then map (fun p => [TI (p_tmp p); TI (zlen pn)]) ptg else counted 0 ptg).
  assert (LC : forall (l : list pt) n, zlen (counted n l) = zlen l).
  { unfold zlen. induction l as [|p l IH]; intros n; [reflexivity|]. cbn [counted length].
    rewrite !Nat2Z.inj_succ, IH. reflexivity. }
  assert (GC : forall r (l : list pt) n, In r (counted n l) -> exists i j, r = [TI i; TI j]).
  { induction l as [|p l IH]; intros n0; [intros []|].
    cbn [counted]. intros [<- |Hr']; [eexists; eexists; reflexivity|]. eapply IH. exact Hr'. }
  split; [|split; [reflexivity|split; [intros r; apply GC|split; [|split; [|split; [|split; [|split]]]]]]].
  - f_equal. unfold layout, sect. cbn [rows content_of c_pts c_reqv c_parv c_cor c_tri c_reqt c_part
      c_quad c_reqq c_parq c_edge c_rid c_reqa c_para c_tet c_reqe c_pare c_pri c_nor c_nat andb].
    rewrite !zlen_map, !ranked_len, !RAW by apply Vs0.
    unfold slots. rewrite !(raw_len (marked _)). unfold live. rewrite EQ. unfold vmarked.
    fold (@zlen elt). rewrite !(ZL _ _ (proj1 Vnt)), !(ZL _ _ (proj1 Vnq)), !(ZL _ _ (proj1 Vna)).
    assert (PV : map (fun p => v3 (p_c p) ++ [TI (Z.abs (p_ref p))]) (map (aget (numbered m)) (used_vertices m))
      = map (@prow D) (map (fun k => (p_c (aget (m_pt m) k), Z.abs (p_ref (aget (m_pt m) k)))) (used_vertices m))).
    { rewrite !map_map. apply map_ext. intros k. unfold prow. cbn [fst snd].
      destruct (VK k) as (_ & _ & -> & _ & _ & ->). reflexivity. }
    rewrite PV. rewrite !map_map. rewrite !zlen_map. fold (@zlen pt). fold (@zlen elt).
    assert (ZQ : Z.of_nat (length (elts (m_nq m) (m_quad m))) = m_nq m) by (apply (ZL _ _ (proj1 Vnq))).
    unfold zlen. rewrite !map_length, !ZQ. reflexivity.
  - intros Hx. cbn [rows content_of c_nor c_nat]. unfold normals.
    destruct (Z.eqb_spec (m_xp m) 0); [contradiction|]. split.
    + rewrite !zlen_map, EPN, zlen_map. reflexivity.
    + rewrite EPN. clear - RT.
      assert (G : forall l n, counted n (map (aget a2) l) = map (@irow D) (count_from n (map (rank m) l))).
      { induction l as [|k l IH]; intros n0; [reflexivity|].
        cbn [map counted count_from]. rewrite IH. unfold irow at 2. cbn [fst snd]. rewrite RT. reflexivity. }
      apply G.
  - rewrite zlen_map. reflexivity.
  - destruct bin; [rewrite zlen_map|rewrite LC]; reflexivity.
  - rewrite LC. reflexivity.
  - intros r Hr. apply in_map_iff in Hr. destruct Hr as (p & <- & _). eexists. reflexivity.
  - intros r Hr. destruct bin.
    + apply in_map_iff in Hr. destruct Hr as (p & <- & _). eexists. eexists. reflexivity.
    + eapply GC. exact Hr.
Qed.

End Save.
