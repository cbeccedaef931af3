(** What is read back from what was written, vertex by vertex and element by
    element.  Used by [PropsIo]. *)
From Coq Require Import String ZArith List Lia Bool.
From Verif Require Import CBase IoModel IoScan IoLoad IoBody IoSave IoTrip.
Import ListNotations.
Open Scope Z_scope.
Open Scope list_scope.

Set Implicit Arguments.

Section Same.
Variable D : Type.
Notation V3 := (D * D * D)%type.
Notation mesh := (mesh D).
Notation content := (content D).

(** ** Specification *)

Section Spec.
Variable d0 : D.
Variable neg : V3 -> V3 -> V3 -> V3 -> bool.
Variable unit : V3 -> V3.
(** What becomes of a number, whether the parallel marks are kept, and
    mesh->info.iso. *)
Variable g : D -> D.
Variables par iso : bool.

(** The number [v'] in the new mesh is that of the vertex [v] of the old one: the
    vertices in use keep their order. *)
Definition named (m : mesh) (v v' : Z) : Prop :=
  1 <= v' /\ nth_error (used_vertices m) (Z.to_nat (v' - 1)) = Some v.

Definition in_prism (m : mesh) (k : Z) : bool := mem k (concat (map e_v (live (m_npr m) (m_pri m)))).

(** The vertices of a tetrahedron, the last two exchanged if the volume is negative. *)
Definition oriented (m : mesh) (v : list Z) : list Z :=
  let c i := pr3 g (p_c (aget (m_pt m) i)) in
  match v with
  | [i; j; k; l] => if neg (c i) (c j) (c k) (c l) then [i; j; l; k] else v
  | _ => v
  end.

Record reread (m m' : mesh) : Prop := mkReread
  { rr_np : m_np m' = zlen (used_vertices m);
    rr_pt : forall i k, nth_error (used_vertices m) i = Some k ->
      let p := aget (m_pt m) k in
      let p' := aget (m_pt m') (Z.of_nat i + 1) in
      p_c p' = pr3 g (p_c p) /\ p_ref p' = Z.abs (p_ref p) /\
      has (p_tag p') MG_REQ = has (p_tag p) MG_REQ /\
      has (p_tag p') MG_CRN = has (p_tag p) MG_CRN /\
      has (p_tag p') MG_PARBDY = par && has (p_tag p) MG_PARBDY /\
      vok p' = has (p_tag p) MG_REQ || in_tet m k || in_prism m k /\
      p_n p' = if negb iso && negb (m_xp m =? 0) && smooth m k
               then unit (pr3 g (aget (m_xn m) (p_xp p))) else (d0, d0, d0);
    rr_ne : m_ne m' = zlen (live (m_ne m) (m_tet m));
    rr_tet : forall i e, nth_error (live (m_ne m) (m_tet m)) i = Some e ->
      let e' := aget (m_tet m') (Z.of_nat i + 1) in
      Forall2 (named m) (oriented m (e_v e)) (e_v e') /\ e_ref e' = Z.abs (e_ref e) /\
      e_tag e' = [bit (marked MG_REQ e) MG_REQ + bit (par && marked MG_PARBDY e) MG_PARBDY];
    rr_npr : m_npr m' = zlen (live (m_npr m) (m_pri m));
    rr_pri : forall i e, nth_error (live (m_npr m) (m_pri m)) i = Some e ->
      let e' := aget (m_pri m') (Z.of_nat i + 1) in
      Forall2 (named m) (e_v e) (e_v e') /\ e_ref e' = Z.abs (e_ref e);
    rr_nt : m_nt m' = m_nt m;
    rr_tri : forall k, 1 <= k <= m_nt m ->
      let e := aget (m_tri m) k in let e' := aget (m_tri m') k in
      Forall2 (named m) (e_v e) (e_v e') /\ e_ref e' = Z.abs (e_ref e) /\
      e_tag e' = repeat (bit (marked MG_REQ e) MG_REQ + bit (par && marked MG_PARBDY e) MG_PARBDY) 3;
    rr_nq : m_nq m' = m_nq m;
    rr_quad : forall k, 1 <= k <= m_nq m ->
      let e := aget (m_quad m) k in let e' := aget (m_quad m') k in
      Forall2 (named m) (e_v e) (e_v e') /\ e_ref e' = Z.abs (e_ref e) /\
      e_tag e' = repeat (bit (marked MG_REQ e) MG_REQ + bit (par && marked MG_PARBDY e) MG_PARBDY) 4;
    rr_na : m_na m' = m_na m;
    rr_edge : forall k, 1 <= k <= m_na m ->
      let e := aget (m_edge m) k in let e' := aget (m_edge m') k in
      Forall2 (named m) (e_v e) (e_v e') /\ e_ref e' = Z.abs (e_ref e) /\
      e_tag e' = [MG_REF + bit (marked MG_GEO e) MG_GEO + bit (marked MG_REQ e) MG_REQ
                  + bit (par && marked MG_PARBDY e) MG_PARBDY] }.

End Spec.

(** ** The content of a mesh *)

Lemma mem_filter P l k : mem k (filter P l) = mem k l && P k.
Proof.
  apply eq_true_iff_eq. rewrite andb_true_iff, !mem_In, filter_In. tauto.
Qed.

Lemma mem_rank (m : mesh) P i k : nth_error (used_vertices m) i = Some k ->
  mem (Z.of_nat i + 1) (map (rank m) (filter P (used_vertices m))) = P k.
Proof.
  intros H. pose proof (rank_nth _ _ H) as R. pose proof (nth_error_In _ _ H) as Hk.
  apply eq_true_iff_eq. rewrite mem_In, in_map_iff. split.
  - intros (x & E & Hx). apply filter_In in Hx. destruct Hx as [Hx HP].
    replace k with x; [exact HP|]. apply rank_inj with (m := m); [exact Hx|exact Hk|congruence].
  - intros HP. exists k. split; [exact R|]. apply filter_In. tauto.
Qed.

Lemma mem_verts (m : mesh) l i k : nth_error (used_vertices m) i = Some k ->
  (forall e, In e l -> forall v, In v (e_v e) -> In v (used_vertices m)) ->
  mem (Z.of_nat i + 1) (verts (map (renum m) l)) = mem k (concat (map e_v l)).
Proof.
  intros H U. pose proof (rank_nth _ _ H) as R. pose proof (nth_error_In _ _ H) as Hk.
  apply eq_true_iff_eq. rewrite !mem_In. unfold verts. rewrite !in_concat. split.
  - intros (x & Hx & Hi). apply in_map_iff in Hx. destruct Hx as (y & <- & Hy).
    apply in_map_iff in Hy. destruct Hy as (e & <- & He). cbn [renum fst] in Hi.
    apply in_map_iff in Hi. destruct Hi as (v & E & Hv). exists (e_v e). split; [apply in_map; exact He|].
    replace k with v; [exact Hv|]. apply rank_inj with (m := m); [eapply U; eassumption|exact Hk|congruence].
  - intros (x & Hx & Hi). apply in_map_iff in Hx. destruct Hx as (e & <- & He).
    exists (map (rank m) (e_v e)). split.
    + apply in_map_iff. exists (renum m e). split; [reflexivity|]. apply in_map. exact He.
    + rewrite <- R. apply in_map. exact Hi.
Qed.

Lemma rank_named (m : mesh) v : In v (used_vertices m) -> named m v (rank m v).
Proof.
  intros H. apply In_nth_error in H. destruct H as [i H]. rewrite (rank_nth _ _ H).
  split; [lia|]. replace (Z.to_nat (Z.of_nat i + 1 - 1)) with i by lia. exact H.
Qed.

Lemma ranks_named (m : mesh) l : (forall v, In v l -> In v (used_vertices m)) ->
  Forall2 (named m) l (map (rank m) l).
Proof.
  induction l as [|v l IH]; intros H; cbn; constructor.
  - apply rank_named, H. left. reflexivity.
  - apply IH. intros; apply H. right. assumption.
Qed.

Lemma content_marks_empty (m : mesh) : valid m -> marks_empty (content_of m).
Proof.
  intros V. destruct V as [_ _ _ [Vt _] [Vq _] [Va _] _ _ _ Vquad _ _ _].
  assert (Z0 : forall n (a : arr elt), 0 <= n -> map (renum m) (elts n a) = [] -> n = 0).
  { intros n a Hn E. apply (f_equal (@length _)) in E. unfold elts in E.
    rewrite !map_length, zs_length in E. cbn in E. lia. }
  unfold marks_empty. cbn [content_of c_tri c_quad c_edge c_reqt c_part c_reqq c_parq c_rid c_reqa c_para].
  split; [|split]; intros E.
  - apply (Z0 _ _ Vt) in E. rewrite E. split; reflexivity.
  - unfold live in E. rewrite filter_all in E by (intros e He; apply (Vquad e He)).
    apply (Z0 _ _ Vq) in E. rewrite E. split; reflexivity.
  - apply (Z0 _ _ Va) in E. rewrite E. repeat split; reflexivity.
Qed.

Lemma content_widths (m : mesh) : valid m -> widths (content_of m).
Proof.
  intros V. destruct V as [_ _ _ _ _ _ Vtet Vpri Vtri Vquad Vedge _ _].
  assert (G : forall w l, (forall e, In e l -> length (e_v e) = w) -> widths_ok w (map (renum m) l)).
  { intros w l H x Hx. apply in_map_iff in Hx. destruct Hx as (e & <- & He). cbn. rewrite map_length. apply H, He. }
  unfold widths. cbn [content_of c_tri c_quad c_edge c_tet c_pri].
  repeat split; apply G; intros e He; [apply (Vtri e He) | | apply (Vedge e He) | apply (Vtet e He) | apply (Vpri e He)].
  unfold live in He. apply filter_In in He. apply (Vquad e (proj1 He)).
Qed.

Lemma count_from_In n l x : In x (count_from n l) -> In (fst x) l /\ n < snd x <= n + zlen l.
Proof.
  revert n. induction l as [|y l IH]; intros n H; [destruct H|]. unfold zlen in *. cbn [count_from length] in *.
  destruct H as [<- |H]; cbn [fst snd].
  - split; [left; reflexivity|lia].
  - destruct (IH _ H) as [H1 H2]. split; [right; exact H1|lia].
Qed.

Lemma count_from_len n l : zlen (count_from n l) = zlen l.
Proof.
  revert n. unfold zlen. induction l as [|y l IH]; intros n; [reflexivity|]. cbn [count_from length].
  rewrite !Nat2Z.inj_succ, IH. reflexivity.
Qed.

Lemma normals_used (m : mesh) k : In k (normals m) -> In k (used_vertices m).
Proof.
  unfold normals. destruct (m_xp m =? 0); [intros []|]. intros H. apply filter_In in H. tauto.
Qed.

Lemma content_readable (m : mesh) n : valid m -> zlen (used_vertices m) <= n -> readable n (content_of m).
Proof.
  intros V Hn. destruct (content_widths V) as (W1 & W2 & W3 & W4 & W5).
  assert (VM : forall b, nonneg (vmarked m b)).
  { intros b i Hi. unfold vmarked in Hi. apply in_map_iff in Hi. destruct Hi as (k & <- & Hk).
    apply filter_In in Hk. pose proof (rank_range m _ (proj1 Hk)). lia. }
  assert (SL : forall b n0 a, nonneg (slots b n0 a)).
  { intros b n0 a i Hi. unfold slots in Hi. apply filter_In in Hi. destruct Hi as [Hi _]. apply zs_In in Hi. lia. }
  assert (EO : forall w l, (forall e, In e l -> length (e_v e) = w /\ forall v, In v (e_v e) -> In v (used_vertices m)) ->
    elts_ok w (n + 1) (map (renum m) l)).
  { intros w l H x Hx. apply in_map_iff in Hx. destruct Hx as (e & <- & He). destruct (H e He) as [H1 H2].
    cbn [renum fst]. rewrite map_length. split; [exact H1|]. intros v Hv. apply in_map_iff in Hv.
    destruct Hv as (u & <- & Hu). pose proof (rank_range m _ (H2 u Hu)). lia. }
  destruct V as [_ _ _ _ _ _ Vtet Vpri _ _ _ _ _].
  constructor; cbn [content_of c_pts c_reqv c_parv c_cor c_tri c_reqt c_part
      c_quad c_reqq c_parq c_edge c_rid c_reqa c_para c_tet c_reqe c_pare c_pri c_nor c_nat]; auto.
  - intros i Hi. eapply ranked_pos. exact Hi.
  - intros i Hi. eapply ranked_pos. exact Hi.
  - intros x Hx. apply count_from_In in Hx. destruct Hx as [H1 H2]. rewrite zlen_map in *.
    apply in_map_iff in H1. destruct H1 as (k & <- & Hk). pose proof (rank_range m _ (normals_used _ _ Hk)). lia.
Qed.

Lemma readable_printed n g (c : content) : readable n c -> readable n (as_printed g c).
Proof.
  intros []. constructor; cbn [as_printed c_pts c_reqv c_parv c_cor c_tri c_reqt c_part
      c_quad c_reqq c_parq c_edge c_rid c_reqa c_para c_tet c_reqe c_pare c_pri c_nor c_nat]; auto.
  rewrite zlen_map. assumption.
Qed.

Lemma readable_no_par n (c : content) : readable n c -> readable n (no_par c).
Proof.
  intros []. constructor; cbn [no_par c_pts c_reqv c_parv c_cor c_tri c_reqt c_part
      c_quad c_reqq c_parq c_edge c_rid c_reqa c_para c_tet c_reqe c_pare c_pri c_nor c_nat]; auto;
    intros i [].
Qed.

(** ** The normal of a vertex *)

Lemma given_cons (f : Z -> V3) k x l acc :
  given f k (x :: l) acc = given f k l (if (fst x =? k) && (0 <? snd x) then f (snd x) else acc).
Proof. reflexivity. Qed.

Lemma given_skip (f : Z -> V3) k l : forall n acc, (forall x, In x l -> x <> k) ->
  given f k (count_from n l) acc = acc.
Proof.
  induction l as [|y l IH]; intros n acc H; [reflexivity|]. cbn [count_from]. rewrite given_cons.
  cbn [fst snd].
  destruct (Z.eqb_spec y k) as [->|]; [exfalso; apply (H k); [left; reflexivity|reflexivity]|].
  apply IH. intros; apply H. right. assumption.
Qed.

Lemma given_one (f : Z -> V3) l : forall n i k acc, NoDup l -> 0 <= n ->
  nth_error l i = Some k -> given f k (count_from n l) acc = f (n + Z.of_nat i + 1).
Proof.
  induction l as [|y l IH]; intros n i k acc ND Hn H; [destruct i; discriminate|].
  inversion ND as [|? ? Hy NDl]; subst. cbn [count_from]. rewrite given_cons. cbn [fst snd].
  destruct i as [|i].
  - injection H as ->. rewrite Z.eqb_refl.
    destruct (Z.ltb_spec 0 (n + 1)); [|lia]. cbn [andb].
    rewrite given_skip; [f_equal; lia|]. intros x Hx ->. contradiction.
  - cbn in H.
    assert (y <> k) by (intros ->; apply Hy; eapply nth_error_In; exact H).
    destruct (Z.eqb_spec y k); [contradiction|]. cbn [andb].
    rewrite (IH _ _ _ _ NDl) with (2 := H); [f_equal; lia|lia].
Qed.

Lemma NoDup_map_inj A B (f : A -> B) l :
  (forall x y, In x l -> In y l -> f x = f y -> x = y) -> NoDup l -> NoDup (map f l).
Proof.
  induction l as [|x l IH]; intros F ND; cbn; constructor; inversion ND as [|? ? Hx NDl]; subst.
  - intros H. apply in_map_iff in H. destruct H as (y & E & Hy).
    assert (y = x) by (apply F; [right|left|]; auto). subst. contradiction.
  - apply IH; [|exact NDl]. intros; apply F; try right; assumption.
Qed.

Section Again.
Variable d0 : D.
Variable fl : D -> D.
Variable neg : V3 -> V3 -> V3 -> V3 -> bool.
Variable unit : V3 -> V3.

Lemma g3_id (c : V3) : g3 (gver fl 2) c = c.
Proof. destruct c as [[x y] z]. reflexivity. Qed.
Lemma g3_nor (c : V3) : g3 (gnor fl 2) c = c.
Proof. destruct c as [[x y] z]. reflexivity. Qed.

(** The content of which the file is made: the numbers are changed by [g], the
    parallel marks are kept if [par]. *)
Definition told (g : D -> D) (par : bool) (m : mesh) : content :=
  let c := as_printed g (content_of m) in if par then c else no_par c.

Lemma normal_same g par iso (m : mesh) i k : nth_error (used_vertices m) i = Some k ->
  normal d0 fl unit iso 2 (told g par m) (Z.of_nat i + 1) =
  if negb iso && negb (m_xp m =? 0) && smooth m k
  then unit (pr3 g (aget (m_xn m) (p_xp (aget (m_pt m) k)))) else (d0, d0, d0).
Proof.
  intros H.
  assert (EN : c_nor (told g par m) = map (fun k => pr3 g (aget (m_xn m) (p_xp (aget (m_pt m) k)))) (normals m)).
  { destruct par; cbn; rewrite map_map; reflexivity. }
  assert (EA : c_nat (told g par m) = count_from 0 (map (rank m) (normals m))) by (destruct par; reflexivity).
  unfold normal. rewrite EN, EA, zlen_map. clear EN EA.
  destruct iso; [reflexivity|]. cbn [orb negb andb].
  pose proof (rank_nth _ _ H) as R. pose proof (nth_error_In _ _ H) as Hu.
  destruct (negb (m_xp m =? 0) && smooth m k) eqn:B.
  - apply andb_true_iff in B. destruct B as [B1 B2].
    assert (Hk : In k (normals m)).
    { unfold normals. destruct (m_xp m =? 0); [discriminate|]. apply filter_In. tauto. }
    assert (NZ : zlen (normals m) =? 0 = false).
    { apply Z.eqb_neq. destruct (normals m); [destruct Hk|]. unfold zlen. cbn. lia. }
    rewrite NZ. apply In_nth_error in Hk. destruct Hk as [j Hj].
    rewrite given_one with (i := j).
    + replace (Z.to_nat (0 + Z.of_nat j + 1 - 1)) with j by lia.
      rewrite g3_nor. f_equal. apply nth_error_nth. rewrite nth_error_map, Hj. reflexivity.
    + apply NoDup_map_inj.
      * intros x y Hx Hy. apply rank_inj; apply normals_used; assumption.
      * unfold normals. destruct (m_xp m =? 0); [constructor|]. apply NoDup_filter, used_NoDup.
    + lia.
    + rewrite nth_error_map, Hj. cbn. rewrite R. reflexivity.
  - destruct (zlen (normals m) =? 0) eqn:NZ; [reflexivity|].
    apply given_skip. intros x Hx E. apply in_map_iff in Hx. destruct Hx as (k' & <- & Hk').
    assert (k' = k) by (apply rank_inj with (m := m); [apply normals_used; exact Hk'|exact Hu|congruence]).
    subst k'. unfold normals in Hk'. destruct (m_xp m =? 0); [destruct Hk'|].
    apply filter_In in Hk'. destruct Hk' as [_ Hk']. rewrite Hk' in B. discriminate B.
Qed.

Lemma coord_same g par (m : mesh) v : In v (used_vertices m) ->
  coord d0 fl 2 (told g par m) (rank m v) = pr3 g (p_c (aget (m_pt m) v)).
Proof.
  intros H. apply In_nth_error in H. destruct H as [i H]. rewrite (rank_nth _ _ H). unfold coord.
  destruct (Z.leb_spec (Z.of_nat i + 1) 0); [lia|].
  assert (EP : c_pts (told g par m) = map (fun k => (pr3 g (p_c (aget (m_pt m) k)), Z.abs (p_ref (aget (m_pt m) k)))) (used_vertices m)).
  { destruct par; cbn; rewrite map_map; reflexivity. }
  replace (Z.to_nat (Z.of_nat i + 1 - 1)) with i by lia.
  rewrite EP, nth_error_map, H. cbn [option_map fst]. apply g3_id.
Qed.

Theorem loaded_same g par iso (m m' : mesh) : valid m ->
  loaded d0 fl neg unit iso 2 (told g par m) m' -> reread d0 neg unit g par iso m m'.
Proof.
  intros V L. pose proof V as V'. destruct V as [_ _ _ [Vt _] [Vq _] [Va _] Vtet Vpri Vtri Vquad Vedge _ _].
  destruct L as [Lnp Lpt Lnt Ltri Lnq Lquad Lna Ledge Lne Ltet Lnpr Lpri _].
  assert (EPT : c_pts (told g par m) = map (fun k => (pr3 g (p_c (aget (m_pt m) k)), Z.abs (p_ref (aget (m_pt m) k)))) (used_vertices m)).
  { destruct par; cbn; rewrite map_map; reflexivity. }
  assert (ETE : c_tet (told g par m) = map (renum m) (live (m_ne m) (m_tet m))) by (destruct par; reflexivity).
  assert (EPI : c_pri (told g par m) = map (renum m) (live (m_npr m) (m_pri m))) by (destruct par; reflexivity).
  assert (ETR : c_tri (told g par m) = map (renum m) (elts (m_nt m) (m_tri m))) by (destruct par; reflexivity).
  assert (EQU : c_quad (told g par m) = map (renum m) (elts (m_nq m) (m_quad m))).
  { replace (elts (m_nq m) (m_quad m)) with (live (m_nq m) (m_quad m)); [destruct par; reflexivity|].
    apply filter_all. intros e He. apply (Vquad e He). }
  assert (EED : c_edge (told g par m) = map (renum m) (elts (m_na m) (m_edge m))) by (destruct par; reflexivity).
  assert (PM : forall b k l l', (par = true -> mem k l = b) -> mem k (if par then l else l') = (if par then b else mem k l')).
  { intros b k l l' H. destruct par; [apply H|]; reflexivity. }
  assert (ZE : forall n (a : arr elt), 0 <= n -> zlen (map (renum m) (elts n a)) = n).
  { intros n a Hn. rewrite zlen_map. unfold zlen, elts. rewrite map_length, zs_length. lia. }
  assert (NE : forall n (a : arr elt) k, 1 <= k <= n ->
    exists i, k = Z.of_nat i + 1 /\ nth_error (elts n a) i = Some (aget a k)).
  { intros n a k Hk. exists (Z.to_nat (k - 1)). split; [lia|]. unfold elts. rewrite nth_error_map.
    assert (E : nth_error (zs n) (Z.to_nat (k - 1)) = Some k) by (apply zs_nth; split; lia).
    rewrite E. reflexivity. }
  assert (SM : forall b n (a : arr elt) i e, nth_error (elts n a) i = Some e ->
    mem (Z.of_nat i + 1) (slots b n a) = marked b e).
  { intros b n a i e H. unfold slots. apply (raw_mem (marked b) _ _ _ H). }
  constructor.
  - rewrite Lnp, EPT, zlen_map. reflexivity.
  - intros i k H. cbv zeta. rewrite EPT in Lpt.
    specialize (Lpt i _ (eq_trans (nth_error_map _ _ _) (f_equal (option_map _) H))).
    cbv zeta in Lpt. rewrite Lpt. cbn [p_c p_ref p_tag p_n fst snd].
    assert (T1 : mem (Z.of_nat i + 1) (c_reqv (told g par m)) = has (p_tag (aget (m_pt m) k)) MG_REQ).
    { replace (c_reqv (told g par m)) with (vmarked m MG_REQ) by (destruct par; reflexivity). apply (mem_rank m (fun j => has (p_tag (aget (m_pt m) j)) _) _ H). }
    assert (T2 : mem (Z.of_nat i + 1) (c_cor (told g par m)) = has (p_tag (aget (m_pt m) k)) MG_CRN).
    { replace (c_cor (told g par m)) with (vmarked m MG_CRN) by (destruct par; reflexivity). apply (mem_rank m (fun j => has (p_tag (aget (m_pt m) j)) _) _ H). }
    assert (T3 : mem (Z.of_nat i + 1) (c_parv (told g par m)) = par && has (p_tag (aget (m_pt m) k)) MG_PARBDY).
    { destruct par; [|reflexivity]. apply (mem_rank m (fun j => has (p_tag (aget (m_pt m) j)) _) _ H). }
    assert (T4 : used (told g par m) (Z.of_nat i + 1) = in_tet m k || in_prism m k).
    { unfold used. rewrite ETE, EPI. f_equal; apply mem_verts; try exact H.
      - intros e He. apply (Vtet e He).
      - intros e He. apply (Vpri e He). }
    rewrite T1, T2, T3, T4. rewrite g3_id, (normal_same g par iso m _ H).
    set (r := has (p_tag (aget (m_pt m) k)) MG_REQ). set (cr := has (p_tag (aget (m_pt m) k)) MG_CRN).
    set (pa := par && has (p_tag (aget (m_pt m) k)) MG_PARBDY).
    split; [reflexivity|]. split; [apply Z.abs_eq, Z.abs_nonneg|].
    split; [|split; [|split; [|split; [|reflexivity]]]].
    + destruct r, cr, pa, (in_tet m k), (in_prism m k); reflexivity.
    + destruct r, cr, pa, (in_tet m k), (in_prism m k); reflexivity.
    + destruct r, cr, pa, (in_tet m k), (in_prism m k); reflexivity.
    + unfold vok. cbn [p_tag]. destruct r, cr, pa, (in_tet m k), (in_prism m k); reflexivity.
  - rewrite Lne, ETE, zlen_map. reflexivity.
  - intros i e H. cbv zeta. rewrite ETE in Ltet.
    specialize (Ltet i _ (eq_trans (nth_error_map _ _ _) (f_equal (option_map _) H))).
    cbv zeta in Ltet. rewrite Ltet. cbn [e_v e_ref e_tag renum fst snd].
    destruct (Vtet e (nth_error_In _ _ H)) as [W U].
    split; [|split; [reflexivity|]].
    + destruct (e_v e) as [|v1 [|v2 [|v3 [|v4 [|]]]]]; try discriminate W.
      cbn [map turn oriented]. rewrite !coord_same by (apply U; cbn; tauto).
      destruct (neg _ _ _ _); [change [rank m v1; rank m v2; rank m v4; rank m v3] with (map (rank m) [v1; v2; v4; v3])
        | change [rank m v1; rank m v2; rank m v3; rank m v4] with (map (rank m) [v1; v2; v3; v4])];
        apply ranks_named; intros v Hv; apply U; cbn in *; tauto.
    + assert (T1 : mem (Z.of_nat i + 1) (c_reqe (told g par m)) = marked MG_REQ e).
      { replace (c_reqe (told g par m)) with (ranked (marked MG_REQ) 0 (elts (m_ne m) (m_tet m))) by (destruct par; reflexivity).
        apply ranked_mem. exact H. }
      assert (T2 : mem (Z.of_nat i + 1) (c_pare (told g par m)) = par && marked MG_PARBDY e).
      { destruct par; [|reflexivity]. apply ranked_mem. exact H. }
      rewrite T1, T2. destruct (marked MG_REQ e), (par && marked MG_PARBDY e); reflexivity.
  - rewrite Lnpr, EPI, zlen_map. reflexivity.
  - intros i e H. cbv zeta. rewrite EPI in Lpri.
    specialize (Lpri i _ (eq_trans (nth_error_map _ _ _) (f_equal (option_map _) H))).
    rewrite Lpri. cbn [e_v e_ref renum fst snd]. split; [|reflexivity].
    apply ranks_named. apply (Vpri e (nth_error_In _ _ H)).
  - rewrite Lnt, ETR. apply ZE, Vt.
  - intros k Hk. cbv zeta. destruct (NE _ (m_tri m) _ Hk) as (i & -> & H). rewrite ETR in Ltri.
    specialize (Ltri i _ (eq_trans (nth_error_map _ _ _) (f_equal (option_map _) H))).
    cbv zeta in Ltri. rewrite Ltri. cbn [e_v e_ref e_tag renum fst snd].
    split; [apply ranks_named, (Vtri _ (nth_error_In _ _ H))|]. split; [reflexivity|].
    f_equal.
    assert (T1 : mem (Z.of_nat i + 1) (c_reqt (told g par m)) = marked MG_REQ (aget (m_tri m) (Z.of_nat i + 1))).
    { replace (c_reqt (told g par m)) with (slots MG_REQ (m_nt m) (m_tri m)) by (destruct par; reflexivity). apply SM, H. }
    assert (T2 : mem (Z.of_nat i + 1) (c_part (told g par m)) = par && marked MG_PARBDY (aget (m_tri m) (Z.of_nat i + 1))).
    { destruct par; [|reflexivity]. apply (SM _ _ _ _ _ H). }
    rewrite T1, T2. destruct (marked MG_REQ _), (par && _); reflexivity.
  - rewrite Lnq, EQU. apply ZE, Vq.
  - intros k Hk. cbv zeta. destruct (NE _ (m_quad m) _ Hk) as (i & -> & H). rewrite EQU in Lquad.
    specialize (Lquad i _ (eq_trans (nth_error_map _ _ _) (f_equal (option_map _) H))).
    cbv zeta in Lquad. rewrite Lquad. cbn [e_v e_ref e_tag renum fst snd].
    split; [apply ranks_named, (Vquad _ (nth_error_In _ _ H))|]. split; [reflexivity|].
    f_equal.
    assert (T1 : mem (Z.of_nat i + 1) (c_reqq (told g par m)) = marked MG_REQ (aget (m_quad m) (Z.of_nat i + 1))).
    { replace (c_reqq (told g par m)) with (slots MG_REQ (m_nq m) (m_quad m)) by (destruct par; reflexivity). apply SM, H. }
    assert (T2 : mem (Z.of_nat i + 1) (c_parq (told g par m)) = par && marked MG_PARBDY (aget (m_quad m) (Z.of_nat i + 1))).
    { destruct par; [|reflexivity]. apply (SM _ _ _ _ _ H). }
    rewrite T1, T2. destruct (marked MG_REQ _), (par && _); reflexivity.
  - rewrite Lna, EED. apply ZE, Va.
  - intros k Hk. cbv zeta. destruct (NE _ (m_edge m) _ Hk) as (i & -> & H). rewrite EED in Ledge.
    specialize (Ledge i _ (eq_trans (nth_error_map _ _ _) (f_equal (option_map _) H))).
    cbv zeta in Ledge. rewrite Ledge. cbn [e_v e_ref e_tag renum fst snd].
    split; [apply ranks_named, (Vedge _ (nth_error_In _ _ H))|]. split; [reflexivity|].
    assert (T0 : mem (Z.of_nat i + 1) (c_rid (told g par m)) = marked MG_GEO (aget (m_edge m) (Z.of_nat i + 1))).
    { replace (c_rid (told g par m)) with (slots MG_GEO (m_na m) (m_edge m)) by (destruct par; reflexivity). apply SM, H. }
    assert (T1 : mem (Z.of_nat i + 1) (c_reqa (told g par m)) = marked MG_REQ (aget (m_edge m) (Z.of_nat i + 1))).
    { replace (c_reqa (told g par m)) with (slots MG_REQ (m_na m) (m_edge m)) by (destruct par; reflexivity). apply SM, H. }
    assert (T2 : mem (Z.of_nat i + 1) (c_para (told g par m)) = par && marked MG_PARBDY (aget (m_edge m) (Z.of_nat i + 1))).
    { destruct par; [|reflexivity]. apply (SM _ _ _ _ _ H). }
    rewrite T0, T1, T2. destruct (marked MG_GEO _), (marked MG_REQ _), (par && _); reflexivity.
Qed.

End Again.
End Same.
