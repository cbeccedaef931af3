(** The tetrahedron allocator and the packing before hashing. *)
From Coq Require Import ZArith List Lia Bool Permutation.
From Verif Require Import CBase Chain MeshModel PoolModel PoolSpec.
Import ListNotations.
Open Scope Z_scope.

Definition eocc (st : espec) (k : Z) : bool := match ecell st k with None => false | Some _ => true end.
Definition v3s (a : arr tetra) (k : Z) : Z := v3 (aget a k).

Record EInv (s : epool) (st : espec) (L : list Z) : Prop := {
  ei_sees : esees s st;
  ei_free : FInv (enil s) (emax s) (v3s (etet s)) (eocc st) L;
  ei_nul : forall k, 1 <= k <= emax s -> ecell st k = None -> eok (aget (etet s) k) = false;
  ei_last : 0 < ene s -> ecell st (ene s) <> None
}.
Definition einv (s : epool) (st : espec) : Prop := exists L, EInv s st L.

Lemma link_tets_ok lo hi a :
  0 <= lo -> hi <= alen a ->
  exists a', link_tets lo hi a = Ret a' /\ alen a' = alen a /\
    forall k, aget a' k = if (lo <=? k) && (k <? hi) then set_v3 (aget a k) (k + 1) else aget a k.
Proof.
  intros Hlo Hhi. unfold link_tets.
  destruct (Z_le_gt_dec lo (hi - 1 + 1)) as [Hle|Hgt].
  - destruct (@for_range_inv (arr tetra) (fun i b => alen b = alen a /\
       forall k, aget b k = if (lo <=? k) && (k <? i) then set_v3 (aget a k) (k + 1) else aget a k)
       (fun k a => p <- rd a k ;; wr a k (set_v3 p (k + 1))) lo (hi - 1) a) as [a' [E [L H]]].
    + exact Hle.
    + split; [reflexivity|]. intros k. destruct (Z.leb_spec lo k), (Z.ltb_spec k lo); reflexivity || lia.
    + intros i b Hi [L H]. rewrite rd_ok by lia. cbn [bind]. rewrite wr_ok by lia. eexists. split; [reflexivity|].
      cbn [alen aget]. split; [exact L|]. intros k. unfold upd. rewrite !H.
      destruct (Z.eqb_spec k i) as [->|N].
      * destruct (Z.leb_spec lo i), (Z.ltb_spec i (i + 1)), (Z.ltb_spec i i); try lia. reflexivity.
      * destruct (Z.leb_spec lo k), (Z.ltb_spec k (i + 1)), (Z.ltb_spec k i); try lia; reflexivity.
    + exists a'. split; [exact E|]. split; [exact L|]. intros k. rewrite H.
      replace (hi - 1 + 1) with hi by lia. reflexivity.
  - exists a. unfold for_range. replace (Z.to_nat (hi - 1 - lo + 1)) with 0%nat by lia.
    split; [reflexivity|]. split; [reflexivity|]. intros k.
    destruct (Z.leb_spec lo k), (Z.ltb_spec k hi); reflexivity || lia.
Qed.

Lemma eok_pos t : 0 < v0 t -> eok t = true.
Proof. unfold eok. apply Z.ltb_lt. Qed.

Lemma init_inv ne nemax f :
  0 <= ne < nemax -> (forall k, 1 <= k <= ne -> 0 < v0 (f k)) ->
  exists s0 s, alloc_tets ne nemax = Ret s0 /\ load_tets s0 f = Ret s /\
    einv s (mkES (fun k => if (1 <=? k) && (k <=? ne) then Some (f k) else None) nemax None).
Proof.
  intros Hn Hf. unfold alloc_tets.
  destruct (link_tets_ok (ne + 1) (nemax - 1) (acalloc (nemax + 1) tetra0)) as [a [E [L H]]]; [lia|cbn; lia|].
  rewrite E. cbn [bind]. eexists. cbn [alen acalloc aget] in L, H. unfold load_tets. cbn [ene].
  destruct (@for_range_inv epool (fun i s => ene s = ne /\ enil s = ne + 1 /\ emax s = nemax /\ eadj s = None /\
      alen (etet s) = nemax + 1 /\
      forall k, aget (etet s) k = if (1 <=? k) && (k <? i) then f k else aget a k)
     (fun k s => setElt s k (f k)) 1 ne (mkE ne (ne + 1) nemax a None)) as [s [Es [S1 [S2 [S3 [S4 [S5 S6]]]]]]].
  - lia.
  - cbn [ene enil emax eadj etet]. repeat split; auto. intros k. destruct (Z.leb_spec 1 k), (Z.ltb_spec k 1); reflexivity || lia.
  - intros i s Hi [S1 [S2 [S3 [S4 [S5 S6]]]]]. unfold setElt. rewrite wr_ok by lia. cbn [bind]. eexists. split; [reflexivity|].
    cbn [ene enil emax eadj etet alen aget]. repeat split; auto. intros k. unfold upd. rewrite S6.
    destruct (Z.eqb_spec k i) as [->|N].
    + destruct (Z.leb_spec 1 i), (Z.ltb_spec i (i + 1)); try lia. reflexivity.
    + destruct (Z.leb_spec 1 k), (Z.ltb_spec k (i + 1)), (Z.ltb_spec k i); try lia; reflexivity.
  - exists s. split; [reflexivity|]. split; [exact Es|].
    exists (zrange (ne + 1) (Z.max (ne + 1) (nemax - 1))).
    assert (Hhi : forall k, ne < k -> aget (etet s) k = aget a k).
    { intros k Hk. rewrite S6. destruct (Z.leb_spec 1 k), (Z.ltb_spec k (ne + 1)); reflexivity || lia. }
    assert (Hlow : forall k, 1 <= k <= ne -> aget (etet s) k = f k).
    { intros k Hk. rewrite S6. destruct (Z.leb_spec 1 k), (Z.ltb_spec k (ne + 1)); reflexivity || lia. }
    assert (Hnul : forall k, ne < k -> eok (aget (etet s) k) = false).
    { intros k Hk. rewrite Hhi, H by lia. destruct (_ && _); reflexivity. }
    constructor; rewrite ?S1, ?S2, ?S3.
    + constructor; rewrite ?S1, ?S2, ?S3, ?S4; cbn [ecell esmax esadj].
      * lia.
      * intros i t. destruct (Z.leb_spec 1 i), (Z.leb_spec i ne); simpl; intros E1; try discriminate.
        inversion E1; subst t. rewrite Hlow by lia. split; [lia|]. split; [reflexivity|]. apply eok_pos. apply Hf. lia.
      * intros i Hi. destruct (Z.leb_spec 1 i), (Z.leb_spec i ne); simpl; intros E1; try discriminate; lia.
      * exact Logic.I.
    + apply FInv_relink.
      * lia.
      * intros k. unfold eocc. cbn [ecell]. destruct (Z.leb_spec 1 k), (Z.leb_spec k ne); simpl; split; try discriminate; try lia; reflexivity.
      * intros k Hk. unfold v3s. rewrite Hhi, H by lia. destruct (Z.leb_spec (ne + 1) k), (Z.ltb_spec k (nemax - 1)); try lia. reflexivity.
      * intros k Hk Hk2. unfold v3s. rewrite Hhi, H by lia. destruct (Z.leb_spec (ne + 1) k), (Z.ltb_spec k (nemax - 1)); try lia. reflexivity.
    + cbn [ecell]. intros k Hk. destruct (Z.leb_spec 1 k), (Z.leb_spec k ne); simpl; intros E1; try discriminate; apply Hnul; lia.
    + cbn [ecell]. intros Hp. destruct (Z.leb_spec 1 ne), (Z.leb_spec ne ne); simpl; try discriminate; lia.
Qed.

(** Taking the head slot and filling it. *)
Lemma newElt_fill s st mark t :
  einv s st -> 0 < v0 t -> enil s <> 0 ->
  let i := enil s in
  1 <= i <= emax s /\ ecell st i = None /\
  exists s1, newElt mark s = Ret (i, s1) /\ emax s1 = emax s /\
  exists a, wr (etet s1) i t = Ret a /\
    einv (mkE (ene s1) (enil s1) (emax s1) a (eadj s1))
         (mkES (upd (ecell st) i (Some t)) (esmax st) (esadj st)).
Proof.
  intros [L I] Ht Nn i. pose proof (ei_sees _ _ _ I) as [[M1 [M2 M3]] SU SF SA].
  set (a1 := upd (aget (etet s)) i (let t := aget (etet s) i in mkT (v0 t) (v1 t) (v2 t) 0 (tref t) (txt t) mark (tq t))).
  set (a2 := mkArr (alen (etet s)) (upd a1 i t)).
  assert (Ha : forall k, aget a2 k = if k =? i then t else aget (etet s) k).
  { intros k. unfold a2, a1. cbn [aget]. unfold upd. destruct (k =? i); reflexivity. }
  assert (P0 := FInv_pop _ _ _ (fun k => if k =? i then 0 else v3s (etet s) k) _ _ (ei_free _ _ _ I) Nn).
  cbv beta in P0. fold i in P0. rewrite Z.eqb_refl in P0.
  destruct P0 as [R [O [L' [EL F]]]]; [reflexivity | intros k Hk; destruct (Z.eqb_spec k i); congruence|].
  split; [exact R|]. assert (Ci : ecell st i = None) by (unfold eocc in O; destruct (ecell st i); congruence).
  split; [exact Ci|].
  unfold newElt. fold i. destruct (Z.eqb_spec i 0); [lia|].
  rewrite rd_ok by lia. cbn [bind]. rewrite wr_ok by lia. cbn [bind].
  eexists. split; [reflexivity|]. split; [reflexivity|]. cbn [etet ene enil emax eadj].
  rewrite wr_ok by (cbn [alen]; lia). eexists. split; [reflexivity|]. cbn [alen aget].
  fold a1. fold a2. exists L'.
  set (ne := if ene s <? i then i else ene s).
  assert (Hne : ene s <= ne <= emax s) by (unfold ne; destruct (Z.ltb_spec (ene s) i); lia).
  assert (Hne2 : i <= ne) by (unfold ne; destruct (Z.ltb_spec (ene s) i); lia).
  assert (Hnul : forall k, 1 <= k <= emax s -> upd (ecell st) i (Some t) k = None -> eok (aget a2 k) = false).
  { intros k Hk. rewrite Ha. unfold upd. destruct (Z.eqb_spec k i); [discriminate|]. apply (ei_nul _ _ _ I). exact Hk. }
  constructor; cbn [ene enil emax etet eadj ecell esmax esadj].
  - constructor; cbn [ene enil emax etet eadj ecell esmax esadj].
    + split; [exact M1|]. split; [exact M2|]. lia.
    + intros k u. unfold upd at 1. rewrite Ha. destruct (Z.eqb_spec k i) as [->|N]; intros E.
      * inversion E; subst u. split; [lia|]. split; [reflexivity | apply eok_pos; exact Ht].
      * destruct (SU k u E) as [U1 [U2 U3]]. split; [lia | auto].
    + intros k Hk. apply Hnul. lia.
    + exact SA.
  - apply FInv_frame with (nx := fun k => if k =? i then 0 else v3s (etet s) k).
    + apply FInv_ext with (occ := fun k => if k =? i then true else eocc st k); [exact F|].
      intros k. unfold eocc. cbn [ecell]. unfold upd. destruct (k =? i); reflexivity.
    + intros k. unfold eocc. cbn [ecell]. unfold upd, v3s. rewrite Ha. destruct (k =? i); [discriminate|reflexivity].
  - exact Hnul.
  - intros Hp. unfold ne. destruct (Z.ltb_spec (ene s) i).
    + rewrite upd_same. discriminate.
    + unfold upd. destruct (Z.eqb_spec (ene s) i); [discriminate|]. apply (ei_last _ _ _ I). lia.
Qed.

Lemma enil0_full s st : einv s st -> enil s = 0 -> efull st.
Proof.
  intros [L I] E k Hk Ef. pose proof (ei_free _ _ _ I) as [F1 F2 F3 F4].
  pose proof (ei_sees _ _ _ I) as [[M1 _] _ _ _].
  assert (Hin : In k L) by (apply F3; [lia | unfold eocc; rewrite Ef; reflexivity]).
  destruct L as [|x L]; [contradiction|]. simpl in F1. destruct F1 as [F1 [N _]]. congruence.
Qed.

Definition adj_grown (st : espec) : option (Z -> Z) :=
  match esadj st with None => None | Some f => Some (fun k => if k <? 4 * esmax st + 5 then f k else 0) end.

Lemma grow_inv_tets s st g :
  einv s st -> enil s = 0 -> 0 < g ->
  exists a, link_tets (ene s + 1) (emax s + g - 1) (arecalloc (etet s) (emax s + g + 1) tetra0) = Ret a /\
    einv (mkE (ene s) (ene s + 1) (emax s + g) a
            (match eadj s with None => None | Some adj => Some (arecalloc adj (4 * (emax s + g) + 5) 0) end))
         (mkES (ecell st) (emax s + g) (adj_grown st)).
Proof.
  intros EI E0 Hg. pose proof (enil0_full s st EI E0) as Full. destruct EI as [L0 I].
  pose proof (ei_sees _ _ _ I) as [[M1 [M2 M3]] SU SF SA].
  assert (Lnil : L0 = []).
  { pose proof (ei_free _ _ _ I) as [F1 _ _ _]. destruct L0; [reflexivity|].
    simpl in F1. destruct F1 as [F1 [N _]]. congruence. }
  assert (Hcell : forall k, ecell st k = None \/ exists d, ecell st k = Some d).
  { intros k. destruct (ecell st k); [right; eauto | left; reflexivity]. }
  assert (Hne : emax s - 1 <= ene s).
  { destruct (Z_le_gt_dec (emax s) 1); [lia|].
    destruct (Hcell (emax s - 1)) as [E|[d E]]; [exfalso; apply (Full (emax s - 1)); [lia | exact E]|].
    destruct (SU _ d E). lia. }
  assert (Hused : forall k, eocc st k = true <-> 1 <= k <= ene s).
  { intros k. unfold eocc. split.
    - intros E. destruct (Hcell k) as [Ef|[d Ed]]; [rewrite Ef in E; discriminate|]. apply (SU k d Ed).
    - intros Hk. destruct (Hcell k) as [Ef|[d Ed]]; [exfalso|rewrite Ed; reflexivity].
      destruct (Z.eq_dec k (emax s)) as [->|].
      + assert (ene s = emax s) as En by lia. apply (ei_last _ _ _ I); [lia|]. rewrite En. exact Ef.
      + apply (Full k); [lia | exact Ef]. }
  destruct (link_tets_ok (ene s + 1) (emax s + g - 1) (arecalloc (etet s) (emax s + g + 1) tetra0)) as [a [E [L H]]]; [lia|cbn [alen arecalloc]; lia|].
  cbn [alen aget arecalloc] in L, H.
  exists a. split; [exact E|]. exists (zrange (ene s + 1) (Z.max (ene s + 1) (emax s + g - 1))).
  assert (Hlow : forall k, k <= ene s -> aget a k = aget (etet s) k).
  { intros k Hk. rewrite H. destruct (Z.leb_spec (ene s + 1) k); [lia|]. cbn [andb].
    destruct (Z.ltb_spec k (alen (etet s))); [reflexivity|lia]. }
  assert (Hno : forall k, 1 <= k <= ene s -> ecell st k <> None).
  { intros k Hk Ef. apply Hused in Hk. unfold eocc in Hk. rewrite Ef in Hk. discriminate. }
  constructor; cbn [ene enil emax etet eadj ecell esmax esadj].
  - constructor; cbn [ene enil emax etet eadj ecell esmax esadj].
    + lia.
    + intros k d Ek. destruct (SU k d Ek) as [U1 U2]. rewrite Hlow by lia. auto.
    + intros k Hk Ef. exfalso. exact (Hno k Hk Ef).
    + unfold adj_grown. destruct (eadj s) as [adj|], (esadj st) as [f|]; try exact SA.
      destruct SA as [SA1 SA2]. cbn [alen aget arecalloc]. split; [reflexivity|].
      intros k Hk. rewrite SA1. destruct (Z.ltb_spec k (4 * esmax st + 5)); [apply SA2; lia | reflexivity].
  - apply FInv_relink.
    + lia.
    + intros k. unfold eocc. cbn [ecell]. apply Hused.
    + intros k Hk. unfold v3s. rewrite H. destruct (Z.leb_spec (ene s + 1) k), (Z.ltb_spec k (emax s + g - 1)); try lia. reflexivity.
    + intros k Hk Hk2. unfold v3s. rewrite H.
      destruct (Z.leb_spec (ene s + 1) k), (Z.ltb_spec k (emax s + g - 1)); try lia. cbn [andb].
      destruct (Z.ltb_spec k (alen (etet s))); [|reflexivity].
      assert (k = emax s) as -> by lia.
      apply (f_last _ _ _ _ _ (ei_free _ _ _ I)); [|rewrite Lnil; intros []].
      destruct (eocc st (emax s)) eqn:Eo; [apply Hused in Eo; lia | reflexivity].
  - intros k Hk Ef. rewrite H.
    assert (Hz : eok (if k <? alen (etet s) then aget (etet s) k else tetra0) = false).
    { destruct (Z.ltb_spec k (alen (etet s))); [|reflexivity]. apply (ei_nul _ _ _ I); [lia | exact Ef]. }
    destruct (_ && _); exact Hz.
  - exact (ei_last _ _ _ I).
Qed.

Lemma newEltR_ok s st mark t gap :
  einv s st -> 0 < v0 t -> (forall g, gap = Some g -> 0 < g) ->
  exists r s', newEltR mark s t gap true = Ret (r, s') /\ efits st (TNew mark t gap) r (emax s') /\
    einv s' (enext st (TNew mark t gap) r (emax s')).
Proof.
  intros EI Ht Hg. unfold newEltR. pose proof EI as [L I]. pose proof (ei_sees _ _ _ I) as [[M1 [M2 M3]] SU SF SA].
  destruct (Z.eq_dec (enil s) 0) as [E0|N0].
  - assert (E1 : newElt mark s = Ret (0, s)) by (unfold newElt; rewrite E0; reflexivity).
    rewrite E1. cbn [bind Z.eqb]. unfold growElt. pose proof (enil0_full s st EI E0) as Full.
    destruct gap as [g|].
    + destruct (grow_inv_tets s st g EI E0 (Hg g eq_refl)) as [a [Ea I2]]. rewrite Ea. cbn [bind].
      set (adj2 := match eadj s with None => None | Some adj => Some (arecalloc adj (4 * (emax s + g) + 5) 0) end) in I2.
      assert (Eadj : (match eadj s with
        | None => newElt mark (mkE (ene s) (ene s + 1) (emax s + g) a None)
        | Some adj => newElt mark (mkE (ene s) (ene s + 1) (emax s + g) a (Some (arecalloc adj (4 * (emax s + g) + 5) 0))) end)
        = newElt mark (mkE (ene s) (ene s + 1) (emax s + g) a adj2)).
      { unfold adj2. destruct (eadj s); reflexivity. }
      rewrite Eadj.
      destruct (newElt_fill _ _ mark t I2 Ht) as [R [Ci [s1 [E2 [Em [b [Eb I3]]]]]]]; [cbn [enil]; lia|].
      cbn [enil emax ecell esmax esadj] in *. rewrite E2. cbn [bind].
      destruct (Z.eqb_spec (ene s + 1) 0); [lia|]. rewrite Eb. cbn [bind].
      eexists _, _. split; [reflexivity|]. cbn [emax]. rewrite Em. split.
      * right. left. exists g. split; [reflexivity|]. split; [lia|]. split; [exact Full|]. split; [lia|exact Ci].
      * cbn [enext]. destruct (Z.eqb_spec (ene s + 1) 0); [lia|]. rewrite Em in I3. exact I3.
    + cbn [bind Z.eqb]. exists 0, s. split; [reflexivity|]. split; [right; right; auto|]. cbn [enext Z.eqb]. exact EI.
  - destruct (newElt_fill s st mark t EI Ht N0) as [R [Ci [s1 [E2 [Em [b [Eb I3]]]]]]].
    rewrite E2. cbn [bind]. destruct (Z.eqb_spec (enil s) 0); [congruence|]. cbn [bind].
    destruct (Z.eqb_spec (enil s) 0); [congruence|]. rewrite Eb. cbn [bind].
    eexists _, _. split; [reflexivity|]. cbn [emax]. rewrite Em, M1. split; [left; split; [lia|]; split; [reflexivity|]; split; [lia|exact Ci]|].
    cbn [enext]. destruct (Z.eqb_spec (enil s) 0); [congruence|].
    destruct I3 as [L3 I3]. exists L3. destruct I3 as [J1 J2 J3 J4]. constructor; rewrite ?Em, ?M1 in *; auto.
    destruct J1 as [K1 K2 K3 K4]. constructor; cbn [ene enil emax etet eadj ecell esmax esadj] in *; auto.
    destruct (eadj s1) as [ad|], (esadj st) as [f|]; try exact K4.
    destruct K4 as [K5 K6]. split; [exact K5|]. intros k Hk. rewrite K6 by exact Hk.
    destruct (Z.ltb_spec k (4 * esmax st + 5)); [reflexivity|lia].
Qed.

Lemma clear_adj_ok (adj : option (arr Z)) i mx :
  1 <= i <= mx -> (forall a, adj = Some a -> alen a = 4 * mx + 5) ->
  exists adj', clear_adj adj i = Ret adj' /\
   match adj, adj' with
   | None, None => True
   | Some a, Some b => alen b = alen a /\ forall k, aget b k = if in_rows i k then 0 else aget a k
   | _, _ => False end.
Proof.
  intros Hi Ha. destruct adj as [a|]; cbn [clear_adj]; [|exists None; auto].
  specialize (Ha a eq_refl).
  destruct (@for_range_inv (arr Z) (fun j b => alen b = alen a /\
      forall k, aget b k = if (4 * (i - 1) + 1 <=? k) && (k <? j) then 0 else aget a k)
     (fun k a => wr a k 0) (4 * (i - 1) + 1) (4 * (i - 1) + 4) a) as [b [E [L H]]].
  - lia.
  - split; [reflexivity|]. intros k. destruct (Z.leb_spec (4 * (i - 1) + 1) k), (Z.ltb_spec k (4 * (i - 1) + 1)); reflexivity || lia.
  - intros j b Hj [L H]. rewrite wr_ok by lia. eexists. split; [reflexivity|]. cbn [alen aget]. split; [exact L|].
    intros k. unfold upd. rewrite H. destruct (Z.eqb_spec k j) as [->|].
    + destruct (Z.leb_spec (4 * (i - 1) + 1) j), (Z.ltb_spec j (j + 1)); reflexivity || lia.
    + destruct (Z.leb_spec (4 * (i - 1) + 1) k), (Z.ltb_spec k (j + 1)), (Z.ltb_spec k j); reflexivity || lia.
  - rewrite E. cbn [bind]. exists (Some b). split; [reflexivity|]. split; [exact L|].
    intros k. rewrite H. unfold in_rows. destruct (Z.ltb_spec k (4 * (i - 1) + 4 + 1)), (Z.leb_spec k (4 * (i - 1) + 4)); try lia; reflexivity.
Qed.

Lemma delElt_ok s st i :
  einv s st -> 1 <= i <= esmax st ->
  exists r s', delElt s i = Ret (r, s') /\ emax s' = emax s /\ efits st (TDel i) r (emax s') /\ einv s' (enext st (TDel i) r (emax s')).
Proof.
  intros [L I] Hi. unfold delElt. pose proof (ei_sees _ _ _ I) as [[M1 [M2 M3]] SU SF SA].
  rewrite rd_ok by lia. cbn [bind].
  destruct (ecell st i) as [t|] eqn:Ci.
  2: { rewrite (ei_nul _ _ _ I i) by (auto; lia). cbn [negb]. exists 0, s. split; [reflexivity|]. split; [reflexivity|].
       split; [right; auto|]. cbn [enext Z.eqb]. exists L. exact I. }
  destruct (SU i t Ci) as [U1 [U2 U3]]. rewrite U2, U3. cbn [negb]. rewrite wr_ok by lia. cbn [bind].
  destruct (clear_adj_ok (eadj s) i (esmax st) Hi) as [adj' [Ea Pa]].
  { intros a Eq. rewrite Eq in SA. destruct (esadj st); [apply SA | contradiction]. }
  rewrite Ea. cbn [bind]. set (a := mkArr _ _). set (z := set_v3 tetra0 (enil s)) in *.
  assert (Ha : forall k, aget a k = if k =? i then z else aget (etet s) k) by reflexivity.
  assert (Hz : eok z = false) by reflexivity.
  assert (Hne : exists ne, (if i =? ene s then trim eok (S (Z.to_nat (ene s))) a (ene s) else Ret (ene s)) = Ret ne
      /\ 0 <= ne <= ene s /\ (forall k, ne < k <= ene s -> eok (aget a k) = false) /\ (0 < ne -> eok (aget a ne) = true)).
  { destruct (Z.eqb_spec i (ene s)) as [E|N].
    - destruct (trim_spec _ eok a (S (Z.to_nat (ene s))) (ene s)) as [m [T1 [T2 [T4 T3]]]]; [unfold a; cbn [alen]; lia | lia|].
      exists m. auto.
    - exists (ene s). split; [reflexivity|]. split; [lia|]. split; [intros k Hk; lia|].
      intros Hp. rewrite Ha. destruct (Z.eqb_spec (ene s) i); [congruence|].
      destruct (ecell st (ene s)) as [u|] eqn:Cu; [|exfalso; exact (ei_last _ _ _ I Hp Cu)].
      destruct (SU _ u Cu) as [_ [-> Hu]]. exact Hu. }
  destruct Hne as [ne [En [Rn [Tn Ln]]]]. rewrite En. cbn [bind].
  exists 1. eexists. split; [reflexivity|]. split; [reflexivity|]. split; [left; split; [reflexivity|congruence]|].
  cbn [enext]. replace (1 =? 0) with false by reflexivity.
  assert (Hnul : forall k, 1 <= k <= emax s -> upd (ecell st) i None k = None -> eok (aget a k) = false).
  { intros k Hk. rewrite Ha. unfold upd. destruct (Z.eqb_spec k i); [intros _; exact Hz|]. apply (ei_nul _ _ _ I). exact Hk. }
  assert (Hcell : forall k u, upd (ecell st) i None k = Some u -> k <> i /\ ecell st k = Some u).
  { intros k u. unfold upd. destruct (Z.eqb_spec k i); [discriminate|auto]. }
  exists (i :: L).
  constructor; cbn [ene enil emax etet eadj ecell esmax esadj].
  - constructor; cbn [ene enil emax etet eadj ecell esmax esadj].
    + split; [exact M1|]. split; [exact M2|]. lia.
    + intros k u E. destruct (Hcell k u E) as [Nk Ek]. destruct (SU k u Ek) as [V1 [V2 V3]]. rewrite Ha.
      destruct (Z.eqb_spec k i); [congruence|]. split; [|auto]. split; [lia|].
      destruct (Z_le_gt_dec k ne); [auto|]. pose proof (Tn k ltac:(lia)) as T. rewrite Ha in T.
      destruct (Z.eqb_spec k i); congruence.
    + intros k Hk. apply Hnul. lia.
    + destruct (eadj s) as [ad|], (esadj st) as [f|], adj' as [ad'|]; try contradiction; auto.
      destruct SA as [SA1 SA2], Pa as [Pa1 Pa2]. split; [congruence|].
      intros k Hk. rewrite Pa2. destruct (in_rows i k); [reflexivity|]. apply SA2. lia.
  - apply FInv_ext with (occ := fun k => if k =? i then false else eocc st k).
    + apply FInv_push with (nil := enil s) (nx := v3s (etet s)).
      * exact (ei_free _ _ _ I).
      * lia.
      * unfold eocc. rewrite Ci. reflexivity.
      * unfold v3s. rewrite Ha, Z.eqb_refl. reflexivity.
      * intros k Hk. unfold v3s. rewrite Ha. destruct (Z.eqb_spec k i); congruence.
    + intros k. unfold eocc. cbn [ecell]. unfold upd. destruct (k =? i); reflexivity.
  - exact Hnul.
  - intros Hp E. specialize (Ln Hp). rewrite (Hnul ne) in Ln by (auto; lia). discriminate.
Qed.

Lemma setElt_ok s st i t :
  einv s st -> ecell st i <> None -> 0 < v0 t ->
  exists s', setElt s i t = Ret s' /\ emax s' = emax s /\ einv s' (enext st (TSet i t) 0 (emax s')).
Proof.
  intros [L I] Hi Ht. unfold setElt. pose proof (ei_sees _ _ _ I) as [[M1 [M2 M3]] SU SF SA].
  destruct (ecell st i) as [u|] eqn:Ci; [|congruence]. destruct (SU i u Ci) as [U1 [U2 U3]].
  rewrite wr_ok by lia. cbn [bind]. eexists. split; [reflexivity|]. split; [reflexivity|]. cbn [enext].
  set (a := mkArr _ _). assert (Ha : forall k, aget a k = if k =? i then t else aget (etet s) k) by reflexivity.
  exists L.
  assert (Hnul : forall k, 1 <= k <= emax s -> upd (ecell st) i (Some t) k = None -> eok (aget a k) = false).
  { intros k Hk. rewrite Ha. unfold upd. destruct (Z.eqb_spec k i); [discriminate|]. apply (ei_nul _ _ _ I). exact Hk. }
  constructor; cbn [ene enil emax etet eadj ecell esmax esadj].
  - constructor; cbn [ene enil emax etet eadj ecell esmax esadj].
    + split; [exact M1|]. split; [exact M2|]. lia.
    + intros k w. unfold upd at 1. rewrite Ha. destruct (Z.eqb_spec k i) as [->|N]; intros E.
      * inversion E; subst w. split; [lia|]. split; [reflexivity | apply eok_pos; exact Ht].
      * auto.
    + intros k Hk. apply Hnul. lia.
    + exact SA.
  - apply FInv_frame with (nx := v3s (etet s)).
    + apply FInv_ext with (occ := eocc st); [exact (ei_free _ _ _ I)|].
      intros k. unfold eocc. cbn [ecell]. unfold upd. destruct (Z.eqb_spec k i) as [->|]; [rewrite Ci|]; reflexivity.
    + intros k. unfold eocc. cbn [ecell]. unfold upd, v3s. rewrite Ha. destruct (k =? i); [discriminate|reflexivity].
  - exact Hnul.
  - intros Hp. unfold upd. destruct (Z.eqb_spec (ene s) i); [discriminate|]. apply (ei_last _ _ _ I Hp).
Qed.

(** ** Packing *)

Definition alive (mx : Z) (a : Z -> tetra) : list tetra := filter eok (map a (zrange 1 mx)).

Lemma zrange_app lo mid hi : lo <= mid + 1 -> mid <= hi -> zrange lo hi = zrange lo mid ++ zrange (mid + 1) hi.
Proof.
  intros H1 H2. unfold zrange.
  replace (Z.to_nat (hi - lo + 1)) with (Z.to_nat (mid - lo + 1) + Z.to_nat (hi - (mid + 1) + 1))%nat by lia.
  rewrite seq_app, map_app. f_equal. rewrite Nat.add_0_l.
  rewrite <- (Nat.add_0_r (Z.to_nat (mid - lo + 1))) at 1.
  assert (G : forall n b c, map (fun i => lo + Z.of_nat i) (seq (b + c) n) = map (fun i => lo + Z.of_nat b + Z.of_nat i) (seq c n)).
  { induction n as [|n IHn]; intros b c; cbn [seq map]; [reflexivity|]. f_equal; [lia|].
    replace (S (b + c)) with (b + S c)%nat by lia. apply IHn. }
  rewrite G. apply map_ext. intros i. lia.
Qed.

Lemma zrange_one k : zrange k k = [k].
Proof. unfold zrange. replace (Z.to_nat (k - k + 1)) with 1%nat by lia. cbn. f_equal. lia. Qed.

Lemma alive_ext mx a b : (forall k, 1 <= k <= mx -> eok (a k) = eok (b k) /\ (eok (a k) = true -> a k = b k)) -> alive mx a = alive mx b.
Proof.
  intros H. unfold alive.
  assert (G : forall l, (forall k, In k l -> 1 <= k <= mx) -> filter eok (map a l) = filter eok (map b l)).
  { induction l as [|x l IH]; intros Hl; [reflexivity|]. cbn [map filter].
    destruct (H x (Hl x (or_introl eq_refl))) as [E1 E2]. rewrite <- E1.
    rewrite IH by (intros k Hk; apply Hl; right; exact Hk).
    destruct (eok (a x)); [rewrite E2 by reflexivity|]; reflexivity. }
  apply G. intros k. apply in_zrange.
Qed.

(** Moving the last element into a hole. *)
Lemma alive_move mx a k n z :
  1 <= k < n -> n <= mx -> eok (a k) = false -> eok (a n) = true -> eok z = false ->
  Permutation (alive mx a) (alive mx (upd (upd a k (a n)) n z)).
Proof.
  intros Hk Hn Ek En Ez. unfold alive.
  assert (S : zrange 1 mx = zrange 1 (k - 1) ++ [k] ++ zrange (k + 1) (n - 1) ++ [n] ++ zrange (n + 1) mx).
  { rewrite (zrange_app 1 (k - 1) mx) by lia. replace (k - 1 + 1) with k by lia. f_equal.
    rewrite (zrange_app k k mx) by lia. rewrite zrange_one. f_equal.
    rewrite (zrange_app (k + 1) (n - 1) mx) by lia. replace (n - 1 + 1) with n by lia. f_equal.
    rewrite (zrange_app n n mx) by lia. rewrite zrange_one. reflexivity. }
  rewrite S. rewrite !map_app, !filter_app. cbn [map filter].
  set (b := upd (upd a k (a n)) n z).
  assert (Eb : forall l, ~ In k l -> ~ In n l -> map b l = map a l).
  { intros l H1 H2. apply map_ext_in. intros x Hx. unfold b. rewrite !upd_other; auto; intros ->; contradiction. }
  rewrite !Eb by (rewrite in_zrange; lia).
  assert (Bk : b k = a n) by (unfold b; rewrite upd_other by lia; apply upd_same).
  assert (Bn : b n = z) by (unfold b; apply upd_same).
  rewrite Bk, Bn, Ek, En, Ez. cbn [app].
  apply Permutation_app_head.
  transitivity (a n :: filter eok (map a (zrange (k + 1) (n - 1))) ++ filter eok (map a (zrange (n + 1) mx))).
  - symmetry. apply Permutation_middle.
  - reflexivity.
Qed.

Record PInv (a0 : Z -> tetra) (s : epool) (k : Z) : Prop := {
  p_len : alen (etet s) = emax s + 1;
  p_rng : 1 <= ene s <= emax s;
  p_adj : eadj s = None;
  p_low : forall j, 1 <= j < k -> eok (aget (etet s) j) = true;
  p_last : eok (aget (etet s) (ene s)) = true;
  p_high : forall j, ene s < j <= emax s -> eok (aget (etet s) j) = false;
  p_perm : Permutation (alive (emax s) a0) (alive (emax s) (aget (etet s)))
}.

Lemma pak_loop_ok a0 : forall fuel s k,
  PInv a0 s k -> 1 <= k -> k < ene s \/ k = 1 -> k <= ene s -> (Z.to_nat (ene s - k) < fuel)%nat ->
  exists s', pak_loop fuel s k = Ret (1, s') /\ emax s' = emax s /\ PInv a0 s' (ene s' + 1).
Proof.
  induction fuel as [|f IH]; intros s k P Hk1 Hk2 Hk3 Hf; [lia|]. destruct P as [P1 P2 P3 P4 P5 P6 P7].
  cbn [pak_loop]. rewrite rd_ok by lia. cbn [bind].
  assert (Step : exists s1, (if eok (aget (etet s) k) then Ret (1, s)
                 else t1 <- rd (etet s) (ene s) ;; _ <- c_assert (eok t1) ;; a <- wr (etet s) k t1 ;;
                   delElt (mkE (ene s) (enil s) (emax s) a (eadj s)) (ene s)) = Ret (1, s1)
       /\ emax s1 = emax s /\ k <= ene s1 <= ene s /\ PInv a0 s1 (k + 1)).
  { destruct (eok (aget (etet s) k)) eqn:Ek.
    - exists s. split; [reflexivity|]. split; [reflexivity|]. split; [lia|]. constructor; auto.
      intros j Hj. destruct (Z.eq_dec j k) as [->|]; [exact Ek | apply P4; lia].
    - assert (Nk : k <> ene s) by (intros ->; congruence).
      rewrite rd_ok by lia. cbn [bind]. rewrite P5. cbn [c_assert bind]. rewrite wr_ok by lia. cbn [bind].
      unfold delElt. cbn [ene enil emax etet eadj]. rewrite P3.
      assert (W : aget (mkArr (alen (etet s)) (upd (aget (etet s)) k (aget (etet s) (ene s)))) (ene s) = aget (etet s) (ene s))
        by (cbn [aget]; apply upd_other; auto).
      rewrite rd_ok by (cbn [alen]; lia). cbn [bind]. rewrite W, P5. cbn [negb].
      rewrite wr_ok by (cbn [alen]; lia). cbn [bind clear_adj]. rewrite Z.eqb_refl.
      set (z := set_v3 tetra0 (enil s)). cbn [alen aget].
      set (b := upd (upd (aget (etet s)) k (aget (etet s) (ene s))) (ene s) z).
      assert (Bk : b k = aget (etet s) (ene s)) by (unfold b; rewrite upd_other by auto; apply upd_same).
      assert (Bo : forall j, j <> k -> j <> ene s -> b j = aget (etet s) j) by (intros j J1 J2; unfold b; rewrite !upd_other; auto).
      destruct (trim_spec _ eok (mkArr (alen (etet s)) b) (S (Z.to_nat (ene s))) (ene s)) as [m [T1 [T2 [T4 T3]]]]; [cbn [alen]; lia | lia|].
      cbn [aget] in T3, T4. rewrite T1. cbn [bind].
      assert (Hm : k <= m). { destruct (Z_le_gt_dec k m); [auto|]. pose proof (T3 k ltac:(lia)) as T. rewrite Bk, P5 in T. discriminate. }
      assert (Hmn : m <> ene s). { intros Em. specialize (T4 ltac:(lia)). rewrite Em in T4. unfold b in T4. rewrite upd_same in T4. discriminate. }
      eexists. split; [reflexivity|]. split; [reflexivity|]. cbn [ene]. split; [lia|].
      constructor; cbn [ene enil emax etet eadj alen aget]; auto.
      + lia.
      + intros j Hj. destruct (Z.eq_dec j k) as [->|]; [rewrite Bk; exact P5 | rewrite Bo by lia; apply P4; lia].
      + apply T4. lia.
      + intros j Hj. destruct (Z_le_gt_dec j (ene s)); [apply T3; lia|]. rewrite Bo by lia. apply P6. lia.
      + etransitivity; [exact P7|]. apply alive_move; auto; lia. }
  destruct Step as [s1 [E1 [Em [Hr Q]]]]. rewrite E1. cbn [bind]. replace (1 =? 0) with false by reflexivity.
  destruct (Z.ltb_spec (k + 1) (ene s1)) as [Hlt|Hge].
  - destruct (IH s1 (k + 1) Q) as [s' [E' [Em' P']]]; [lia|lia|lia|lia|]. exists s'. rewrite Em', Em. auto.
  - exists s1. split; [reflexivity|]. split; [exact Em|]. destruct Q as [Q1 Q2 Q3 Q4 Q5 Q6 Q7]. constructor; auto.
    intros j Hj. destruct (Z.eq_dec j (ene s1)) as [->|]; [exact Q5 | apply Q4; lia].
Qed.

Lemma filter_all {A} (f : A -> bool) l : (forall x, In x l -> f x = true) -> filter f l = l.
Proof. induction l as [|x l IH]; intros H; simpl; [reflexivity|]. rewrite (H x) by (left; reflexivity). f_equal. apply IH. intros y Hy. apply H. right. exact Hy. Qed.

Lemma filter_none {A} (f : A -> bool) l : (forall x, In x l -> f x = false) -> filter f l = [].
Proof. induction l as [|x l IH]; intros H; simpl; [reflexivity|]. rewrite (H x) by (left; reflexivity). apply IH. intros y Hy. apply H. right. exact Hy. Qed.

Lemma alive_cut n mx a : 0 <= n <= mx -> (forall k, n < k <= mx -> eok (a k) = false) -> alive mx a = filter eok (map a (zrange 1 n)).
Proof.
  intros Hn H. unfold alive. rewrite (zrange_app 1 n mx) by lia. rewrite map_app, filter_app.
  rewrite (filter_none eok (map a (zrange (n + 1) mx))); [apply app_nil_r|].
  intros x Hx. apply in_map_iff in Hx. destruct Hx as [k [<- Hk]]. apply in_zrange in Hk. apply H. lia.
Qed.

Lemma paktet_ok s st :
  einv s st -> eadj s = None -> 1 <= ene s ->
  exists s', paktet s = Ret (1, s') /\ emax s' = emax s /\ eadj s' = None /\ 1 <= ene s' <= ene s
    /\ einv s' (mkES (cells_of s') (esmax st) None)
    /\ chain (v3s (etet s')) (enil s') (zrange (ene s' + 1) (emax s'))
    /\ Permutation (map (aget (etet s')) (zrange 1 (ene s')))
                   (filter eok (map (aget (etet s)) (zrange 1 (ene s)))).
Proof.
  intros [L I] Ha Hn. pose proof (ei_sees _ _ _ I) as [[M1 [M2 M3]] SU SF SA].
  assert (Hhigh : forall j, ene s < j <= emax s -> eok (aget (etet s) j) = false).
  { intros j Hj. apply (ei_nul _ _ _ I); [lia|]. destruct (ecell st j) as [u|] eqn:E; [|reflexivity]. destruct (SU j u E). lia. }
  assert (P : PInv (aget (etet s)) s 1).
  { constructor; auto; try lia.
    - destruct (ecell st (ene s)) as [u|] eqn:Cu; [|exfalso; exact (ei_last _ _ _ I ltac:(lia) Cu)].
      destruct (SU _ u Cu) as [_ [-> Hu]]. exact Hu. }
  unfold paktet.
  destruct (pak_loop_ok (aget (etet s)) (S (Z.to_nat (ene s))) s 1 P) as [s1 [E1 [Em [Q1 Q2 Q3 Q4 Q5 Q6 Q7]]]]; [lia|lia|lia|lia|].
  rewrite E1. cbn [bind]. replace (1 =? 0) with false by reflexivity.
  unfold c_assert. destruct (Z.leb_spec (ene s1) (emax s1)); [|lia]. cbn [bind].
  assert (Hle : ene s1 <= ene s).
  { (* count: at least as many slots were valid *)
    rewrite Em in Q7.
    assert (E2 : alive (emax s) (aget (etet s1)) = map (aget (etet s1)) (zrange 1 (ene s1))).
    { rewrite (alive_cut (ene s1)); [|lia|intros k Hk; apply Q6; lia]. apply filter_all.
      intros x Hx. apply in_map_iff in Hx. destruct Hx as [k [<- Hk]]. apply in_zrange in Hk. apply Q4. lia. }
    rewrite E2, (alive_cut (ene s)) in Q7; [|lia|exact Hhigh].
    apply Permutation_length in Q7. rewrite map_length in Q7.
    assert (Lz : forall n, 0 <= n -> Z.of_nat (length (zrange 1 n)) = n) by (intros n Hn'; unfold zrange; rewrite map_length, seq_length; lia).
    assert (Lf : (length (filter eok (map (aget (etet s)) (zrange 1 (ene s)))) <= length (zrange 1 (ene s)))%nat).
    { rewrite <- (map_length (aget (etet s)) (zrange 1 (ene s))). generalize (map (aget (etet s)) (zrange 1 (ene s))).
      induction l as [|x l IHl]; simpl; [lia|]. destruct (eok x); simpl; lia. }
    pose proof (Lz (ene s1) ltac:(lia)). pose proof (Lz (ene s) ltac:(lia)). lia. }
  assert (Perm : forall b, (forall k, 1 <= k <= ene s1 -> b k = aget (etet s1) k) ->
     Permutation (map b (zrange 1 (ene s1))) (filter eok (map (aget (etet s)) (zrange 1 (ene s))))).
  { intros b Hb. rewrite Em in Q7. rewrite (alive_cut (ene s)) in Q7; [|lia|exact Hhigh].
    rewrite (alive_cut (ene s1)) in Q7; [|lia|intros k Hk; apply Q6; lia].
    symmetry. etransitivity; [exact Q7|].
    rewrite filter_all.
    - rewrite (map_ext_in b (aget (etet s1))); [reflexivity|]. intros k Hk. apply in_zrange in Hk. apply Hb. lia.
    - intros x Hx. apply in_map_iff in Hx. destruct Hx as [k [<- Hk]]. apply in_zrange in Hk. apply Q4. lia. }
  destruct (Z.eqb_spec (ene s1) (emax s1)) as [Ee|Ne].
  - eexists. split; [reflexivity|]. cbn [ene enil emax etet eadj]. split; [exact Em|]. split; [exact Q3|]. split; [lia|]. split; [|split].
    + exists []. constructor; cbn [ene enil emax etet eadj].
      * constructor; cbn [ene enil emax etet eadj esmax ecell esadj].
        -- lia.
        -- intros k t. unfold cells_of. cbn [ene etet]. destruct (Z.leb_spec 1 k), (Z.leb_spec k (ene s1)); simpl; intros E; try discriminate.
           inversion E; subst. split; [lia|]. split; [reflexivity|]. apply Q4. lia.
        -- intros k Hk. unfold cells_of. cbn [ene etet]. destruct (Z.leb_spec 1 k), (Z.leb_spec k (ene s1)); simpl; intros E; try discriminate; lia.
        -- rewrite Q3. exact Logic.I.
      * constructor.
        -- reflexivity.
        -- intros k [].
        -- intros k Hk. unfold eocc, cells_of. cbn [ecell ene etet]. destruct (Z.leb_spec 1 k), (Z.leb_spec k (ene s1)); simpl; intros E; try discriminate; lia.
        -- unfold eocc, cells_of. cbn [ecell ene etet]. destruct (Z.leb_spec 1 (emax s1)), (Z.leb_spec (emax s1) (ene s1)); simpl; intros E; try discriminate; lia.
      * intros k Hk. cbn [ecell]. unfold cells_of. cbn [ene etet]. destruct (Z.leb_spec 1 k), (Z.leb_spec k (ene s1)); simpl; intros E; try discriminate; lia.
      * intros Hp. cbn [ecell]. unfold cells_of. cbn [ene etet]. destruct (Z.leb_spec 1 (ene s1)), (Z.leb_spec (ene s1) (ene s1)); simpl; try discriminate; lia.
    + unfold zrange. replace (Z.to_nat (emax s1 - (ene s1 + 1) + 1)) with 0%nat by lia. reflexivity.
    + apply Perm. reflexivity.
  - destruct (link_tets_ok (ene s1 + 1) (emax s1) (etet s1)) as [a [E2 [La H2]]]; [lia|lia|].
    rewrite E2. cbn [bind]. rewrite rd_ok by lia. cbn [bind]. rewrite wr_ok by lia. cbn [bind].
    eexists. split; [reflexivity|]. cbn [ene enil emax etet eadj]. split; [exact Em|]. split; [exact Q3|]. split; [lia|].
    set (b := mkArr _ _).
    assert (Hb : forall k, 1 <= k <= ene s1 -> aget b k = aget (etet s1) k).
    { intros k Hk. unfold b. cbn [aget]. rewrite upd_other by lia. rewrite H2. destruct (Z.leb_spec (ene s1 + 1) k); [lia|reflexivity]. }
    assert (Hv3 : forall k, ene s1 + 1 <= k < emax s1 -> v3s b k = k + 1).
    { intros k Hk. unfold v3s, b. cbn [aget]. rewrite upd_other by lia. rewrite H2.
      destruct (Z.leb_spec (ene s1 + 1) k), (Z.ltb_spec k (emax s1)); try lia. reflexivity. }
    assert (Hlast : v3s b (emax s1) = 0).
    { unfold v3s, b. cbn [aget]. rewrite upd_same. reflexivity. }
    assert (Hno : forall k, ene s1 < k <= emax s1 -> eok (aget b k) = false).
    { intros k Hk. pose proof (Q6 k ltac:(lia)) as T. unfold b. cbn [aget]. unfold upd. destruct (Z.eqb_spec k (emax s1)) as [->|].
      - rewrite H2. destruct (_ && _); exact T.
      - rewrite H2. destruct (_ && _); exact T. }
    assert (Hch : chain (v3s b) (ene s1 + 1) (zrange (ene s1 + 1) (emax s1))).
    { apply chain_zrange; [lia | exact Hv3 | exact Hlast]. }
    split; [|split; [exact Hch | apply Perm; exact Hb]].
    exists (zrange (ene s1 + 1) (emax s1)). constructor; cbn [ene enil emax etet eadj].
    + constructor; cbn [ene enil emax etet eadj esmax ecell esadj].
      * unfold b. cbn [alen]. lia.
      * intros k t. unfold cells_of. cbn [ene etet]. destruct (Z.leb_spec 1 k), (Z.leb_spec k (ene s1)); cbn [andb]; intros E; try discriminate.
        injection E as E. split; [lia|]. split; [exact E|]. rewrite <- E. change (eok (aget b k) = true). rewrite Hb by lia. apply Q4. lia.
      * intros k Hk. unfold cells_of. cbn [ene etet]. destruct (Z.leb_spec 1 k), (Z.leb_spec k (ene s1)); simpl; intros E; try discriminate; lia.
      * rewrite Q3. exact Logic.I.
    + constructor.
      * exact Hch.
      * intros k Hk. apply in_zrange in Hk. split; [lia|]. unfold eocc, cells_of. cbn [ecell ene etet].
        destruct (Z.leb_spec 1 k), (Z.leb_spec k (ene s1)); simpl; try reflexivity; lia.
      * intros k Hk. unfold eocc, cells_of. cbn [ecell ene etet]. destruct (Z.leb_spec 1 k), (Z.leb_spec k (ene s1)); simpl; intros E; try discriminate; try lia.
        apply in_zrange. lia.
      * intros _ _. exact Hlast.
    + intros k Hk. cbn [ecell]. unfold cells_of. cbn [ene etet]. destruct (Z.leb_spec 1 k), (Z.leb_spec k (ene s1)); simpl; intros E; try discriminate; apply Hno; lia.
    + intros Hp. cbn [ecell]. unfold cells_of. cbn [ene etet]. destruct (Z.leb_spec 1 (ene s1)), (Z.leb_spec (ene s1) (ene s1)); simpl; try discriminate; lia.
Qed.

Lemma tadj_ok s st a :
  einv s st -> (forall x, a = Some x -> alen x = 4 * esmax st + 5) ->
  einv (mkE (ene s) (enil s) (emax s) (etet s) a) (enext st (TAdj a) 0 (emax s)).
Proof.
  intros [L I] Ha. exists L. destruct I as [[M SU SF SA] F N La]. cbn [enext]. constructor; cbn [ene enil emax etet eadj ecell esmax esadj]; auto.
  constructor; cbn [ene enil emax etet eadj ecell esmax esadj]; auto.
  destruct a as [x|]; [|exact Logic.I]. split; [apply Ha; reflexivity | reflexivity].
Qed.

Lemma ereach_inv s st : ereach s st -> einv s st.
Proof.
  induction 1 as [ne nemax f s0 s Hn Hf E0 E | s st o r s' _ IH Hok E | s st s' _ IH Ha Hn E].
  - destruct (init_inv ne nemax f Hn Hf) as [t0 [t [A1 [A2 I]]]]. congruence.
  - destruct o as [mark t gap|i|i t|a]; cbn [eok_op] in Hok; cbn [estep] in E.
    + destruct Hok as [Ht Hg]. destruct (newEltR_ok s st mark t gap IH Ht Hg) as [r2 [s2 [E2 [_ I]]]]. congruence.
    + destruct (delElt_ok s st i IH Hok) as [r2 [s2 [E2 [Em [_ I]]]]]. congruence.
    + destruct Hok as [Hi Ht]. destruct (setElt_ok s st i t IH Hi Ht) as [s2 [E2 [_ I]]]. rewrite E2 in E. cbn [bind] in E. congruence.
    + inversion E; subst. exact (tadj_ok s st a IH Hok).
  - destruct (paktet_ok s st IH Ha Hn) as [s2 [E2 [Em [_ [_ [I _]]]]]]. congruence.
Qed.

Lemma eprogress s st o : einv s st -> eok_op st o ->
  exists r s', estep s o = Ret (r, s') /\ efits st o r (emax s').
Proof.
  intros I Hok. destruct o as [mark t gap|i|i t|a]; cbn [eok_op] in Hok; cbn [estep].
  - destruct Hok as [Ht Hg]. destruct (newEltR_ok s st mark t gap I Ht Hg) as [r2 [s2 [E2 [F _]]]]. eauto.
  - destruct (delElt_ok s st i I Hok) as [r2 [s2 [E2 [Em [F _]]]]]. eauto.
  - destruct Hok as [Hi Ht]. destruct (setElt_ok s st i t I Hi Ht) as [s2 [E2 _]]. rewrite E2. cbn [bind]. exists 0, s2. split; [reflexivity|exact Logic.I].
  - eexists _, _. split; [reflexivity|exact Logic.I].
Qed.
