(** The slot allocators implement their specification. *)
From Coq Require Import ZArith List Lia Bool.
From Verif Require Import CBase Chain MeshModel PoolModel PoolSpec.
Import ListNotations.
Open Scope Z_scope.

(** ** Vertices *)

Definition occ (st : vspec) (k : Z) : bool := match acell st k with Free => false | _ => true end.
Definition tmps (a : arr point) (k : Z) : Z := ptmp (aget a k).

(** [hw]: slots above [hw] were never handed out; they end the free list in order. *)
Record VInv (s : vpool) (st : vspec) (A : list Z) (hw top : Z) : Prop := {
  vi_sees : vsees s st;
  vi_free : FInv (vnil s) (vmax s) (tmps (vpt s)) (occ st) (A ++ zrange (hw + 1) top);
  vi_hw : vnp s <= hw <= vmax s;
  vi_A : forall k, In k A -> k <= hw;
  vi_in : forall k, 1 <= k <= hw -> acell st k = Free -> In k A;
  vi_nul : forall k, 1 <= k <= hw -> acell st k = Free -> vok (aget (vpt s) k) = false;
  vi_xp : 0 <= vxp s /\ 0 <= vxmax s /\ (alost st = false -> vxp s <= vxmax s) /\ (alost st = true -> vxmax s < vxp s);
  vi_pxp : forall k, 1 <= k <= vmax s -> 0 <= pxp (aget (vpt s) k) <= vxmax s;
  vi_lost : alost st = false -> forall k, acell st k <> Lost
}.
Definition vinv (s : vpool) (st : vspec) : Prop := exists A hw top, VInv s st A hw top.

Lemma link_pts_ok lo hi a :
  0 <= lo -> hi <= alen a ->
  exists a', link_pts lo hi a = Ret a' /\ alen a' = alen a /\
    forall k, aget a' k = if (lo <=? k) && (k <? hi) then set_tmp (aget a k) (k + 1) else aget a k.
Proof.
  intros Hlo Hhi. unfold link_pts.
  destruct (Z_le_gt_dec lo (hi - 1 + 1)) as [Hle|Hgt].
  - destruct (@for_range_inv (arr point) (fun i b => alen b = alen a /\
       forall k, aget b k = if (lo <=? k) && (k <? i) then set_tmp (aget a k) (k + 1) else aget a k)
       (fun k a => p <- rd a k ;; wr a k (set_tmp p (k + 1))) lo (hi - 1) a) as [a' [E [L H]]].
    + exact Hle.
    + split; [reflexivity|]. intros k. destruct (Z.leb_spec lo k), (Z.ltb_spec k lo); reflexivity || lia.
    + intros i b Hi [L H]. rewrite rd_ok by lia. cbn [bind]. rewrite wr_ok by lia. eexists. split; [reflexivity|].
      cbn [alen aget]. split; [exact L|]. intros k. unfold upd. rewrite !H.
      destruct (Z.eqb_spec k i) as [->|N].
      * destruct (Z.leb_spec lo i), (Z.ltb_spec i (i + 1)), (Z.ltb_spec i i); try lia. reflexivity.
      * destruct (Z.leb_spec lo k), (Z.ltb_spec k (i + 1)), (Z.ltb_spec k i); try lia; reflexivity.
    + exists a'. split; [exact E|]. split; [exact L|]. intros k. rewrite H.
      replace (hi - 1 + 1) with hi by lia. reflexivity.
  - exists a. unfold for_range. replace (Z.to_nat (hi - 1 - lo + 1)) with 0%nat by lia.
    split; [reflexivity|]. split; [reflexivity|]. intros k.
    destruct (Z.leb_spec lo k), (Z.ltb_spec k hi); reflexivity || lia.
Qed.

Lemma alloc_pts_inv np npmax xpmax :
  0 <= np < npmax -> 0 <= xpmax ->
  exists s, alloc_pts np npmax xpmax = Ret s /\
    vinv s (mkVS (fun k => if (1 <=? k) && (k <=? np) then Used (0, 0, 0, 0) else Free) npmax false).
Proof.
  intros Hn Hx. unfold alloc_pts.
  destruct (link_pts_ok (np + 1) (npmax - 1) (acalloc (npmax + 1) point0)) as [a [E [L H]]]; [lia|cbn; lia|].
  rewrite E. cbn [bind]. eexists. split; [reflexivity|].
  exists [], np, (Z.max (np + 1) (npmax - 1)).
  assert (Hc : forall k, acell (mkVS (fun k => if (1 <=? k) && (k <=? np) then Used (0, 0, 0, 0) else Free) npmax false) k
     = if (1 <=? k) && (k <=? np) then Used (0,0,0,0) else Free) by reflexivity.
  cbn [alen acalloc] in L.
  assert (Hlow : forall k, k <= np -> aget a k = point0).
  { intros k Hk. rewrite H. destruct (Z.leb_spec (np + 1) k); [lia|reflexivity]. }
  constructor; cbn [vnp vnil vmax vpt vxp vxmax amax alost app].
  - constructor; cbn [vnp vnil vmax vpt vxp vxmax amax].
    + lia.
    + intros i d. rewrite Hc. destruct (Z.leb_spec 1 i), (Z.leb_spec i np); simpl; intros E1; try discriminate.
      inversion E1; subst. rewrite Hlow by lia. split; [lia|]. split; reflexivity.
    + intros i Hi. rewrite Hc. destruct (Z.leb_spec 1 i), (Z.leb_spec i np); simpl; intros E1; try discriminate; lia.
  - apply FInv_relink.
    + lia.
    + intros k. unfold occ. rewrite Hc. destruct (Z.leb_spec 1 k), (Z.leb_spec k np); simpl; split; try discriminate; try lia; reflexivity.
    + intros k Hk. unfold tmps. rewrite H. destruct (Z.leb_spec (np + 1) k), (Z.ltb_spec k (npmax - 1)); try lia. reflexivity.
    + intros k Hk Hk2. unfold tmps. rewrite H. destruct (Z.leb_spec (np + 1) k), (Z.ltb_spec k (npmax - 1)); try lia. reflexivity.
  - lia.
  - intros k [].
  - intros i Hi. rewrite Hc. destruct (Z.leb_spec 1 i), (Z.leb_spec i np); simpl; intros E1; try discriminate; lia.
  - intros i Hi. rewrite Hc. destruct (Z.leb_spec 1 i), (Z.leb_spec i np); simpl; intros E1; try discriminate; lia.
  - split; [lia|]. split; [lia|]. split; [lia | discriminate].
  - intros k Hk. rewrite H. destruct (_ && _); cbn; lia.
  - intros _ k. rewrite Hc. destruct (_ && _); discriminate.
Qed.

(** Facts on the head of the free list. *)
Lemma head_facts s st A hw top :
  VInv s st A hw top -> vnil s <> 0 ->
  1 <= vnil s <= vmax s /\ acell st (vnil s) = Free /\
  forall nx' occ', nx' (vnil s) = 0 -> (forall k, k <> vnil s -> nx' k = tmps (vpt s) k) ->
   (forall k, occ' k = if k =? vnil s then true else occ st k) ->
   exists A' hw', hw <= hw' <= vmax s /\ vnil s <= hw' /\ (hw' = hw \/ (hw' = hw + 1 /\ vnil s = hw + 1)) /\ (forall k, In k A' -> k <= hw') /\ (forall k, In k A -> k = vnil s \/ In k A') /\
     FInv (tmps (vpt s) (vnil s)) (vmax s) nx' occ' (A' ++ zrange (hw' + 1) top).
Proof.
  intros I Nn. pose proof (vi_free _ _ _ _ _ I) as F.
  destruct (FInv_pop _ _ _ (fun k => if k =? vnil s then 0 else tmps (vpt s) k) _ _ F Nn) as [R [O _]].
  { rewrite Z.eqb_refl. reflexivity. } { intros k Hk. destruct (Z.eqb_spec k (vnil s)); congruence. }
  split; [exact R|]. split. { unfold occ in O. destruct (acell st (vnil s)); congruence. }
  intros nx' occ' E0 Eo Eocc.
  destruct (FInv_pop _ _ _ nx' _ _ F Nn E0 Eo) as [_ [_ [L' [EL F']]]].
  assert (F2 : FInv (tmps (vpt s) (vnil s)) (vmax s) nx' occ' L') by (eapply FInv_ext; [exact F' | exact Eocc]).
  pose proof (vi_hw _ _ _ _ _ I) as Hhw.
  destruct A as [|x A].
  - (* fresh slot *)
    cbn [app] in EL.
    assert (hw + 1 <= top).
    { destruct (Z_le_gt_dec (hw + 1) top); [auto|]. unfold zrange in EL.
      replace (Z.to_nat (top - (hw + 1) + 1)) with 0%nat in EL by lia. discriminate. }
    assert (EZ : zrange (hw + 1) top = (hw + 1) :: zrange (hw + 1 + 1) top).
    { unfold zrange. replace (Z.to_nat (top - (hw + 1) + 1)) with (S (Z.to_nat (top - (hw + 1 + 1) + 1))) by lia.
      cbn [seq map]. f_equal; [lia|]. rewrite <- seq_shift, map_map. apply map_ext. intros i. lia. }
    rewrite EZ in EL. injection EL as E1 E2.
    exists [], (hw + 1). split; [lia|]. split; [lia|]. split; [right; lia|]. split; [intros k []|]. split; [intros k []|].
    cbn [app]. rewrite E2. exact F2.
  - cbn [app] in EL. injection EL as E1 E2.
    exists A, hw. split; [lia|].
    split; [rewrite <- E1; apply (vi_A _ _ _ _ _ I); left; reflexivity|]. split; [left; reflexivity|].
    split; [intros k Hk; apply (vi_A _ _ _ _ _ I); right; exact Hk|].
    split; [intros k [Hk|Hk]; [left; congruence | right; exact Hk]|]. rewrite E2. exact F2.
Qed.

Lemma occ_put st i c mx l k : occ (put st i c mx l) k = if k =? i then (match c with Free => false | _ => true end) else occ st k.
Proof. unfold occ, put. cbn [acell]. unfold upd. destruct (k =? i); reflexivity. Qed.

Lemma acell_put st i c mx l k : acell (put st i c mx l) k = if k =? i then c else acell st k.
Proof. reflexivity. Qed.

(** Writing a fresh vertex at the head slot. *)
Lemma create_inv s st A hw top c tag xp xmx px :
  VInv s st A hw top -> vnil s <> 0 -> tag_ok tag ->
  0 <= xp -> (alost st = false -> xp <= xmx) -> (alost st = true -> xmx < xp) -> vxmax s <= xmx -> 0 <= px <= xmx ->
  let i := vnil s in
  vinv (mkV (if vnp s <? i then i else vnp s) (ptmp (aget (vpt s) i)) (vmax s)
            (mkArr (alen (vpt s)) (upd (aget (vpt s)) i (mkP c 0 px 0 0 tag))) xp xmx)
       (put st i (Used (c, 0, 0, tag)) (amax st) (alost st)).
Proof.
  intros I Nn Ht X1 X2 X2' X3 X4 i.
  destruct (head_facts _ _ _ _ _ I Nn) as [R [Cf K]].
  pose proof (vi_sees _ _ _ _ _ I) as [[M1 [M2 M3]] SU SF]. pose proof (vi_hw _ _ _ _ _ I) as Hhw.
  destruct (K (tmps (mkArr (alen (vpt s)) (upd (aget (vpt s)) i (mkP c 0 px 0 0 tag))))
              (occ (put st i (Used (c, 0, 0, tag)) (amax st) (alost st)))) as [A' [hw' [H1 [H2 [H3 [H4 [H5 F]]]]]]].
  { unfold tmps. cbn [aget]. fold i. rewrite upd_same. reflexivity. }
  { intros k Hk. unfold tmps. cbn [aget]. rewrite upd_other by exact Hk. reflexivity. }
  { intros k. rewrite occ_put. reflexivity. }
  exists A', hw', top. fold i in R, Cf, H2, H3, F.
  assert (Hnul : forall k, 1 <= k <= hw' -> acell (put st i (Used (c, 0, 0, tag)) (amax st) (alost st)) k = Free ->
                 vok (upd (aget (vpt s)) i (mkP c 0 px 0 0 tag) k) = false).
  { intros k Hk. rewrite acell_put. unfold upd. destruct (Z.eqb_spec k i) as [->|N]; [discriminate|].
    intros E. apply (vi_nul _ _ _ _ _ I); [|exact E]. lia. }
  assert (Hnp : vnp s <= (if vnp s <? i then i else vnp s) <= hw') by (destruct (Z.ltb_spec (vnp s) i); lia).
  assert (Hnp2 : i <= (if vnp s <? i then i else vnp s)) by (destruct (Z.ltb_spec (vnp s) i); lia).
  constructor; cbn [vnp vnil vmax vpt vxp vxmax].
  - constructor; cbn [vnp vnil vmax vpt vxp vxmax amax alen aget put].
    + split; [exact M1|]. split; [exact M2|]. lia.
    + intros k d. change (upd (acell st) i (Used (c, 0, 0, tag)) k) with (acell (put st i (Used (c, 0, 0, tag)) (amax st) (alost st)) k).
      rewrite acell_put. unfold upd. destruct (Z.eqb_spec k i) as [->|N]; intros E.
      * inversion E; subst d. split; [lia|]. split; [reflexivity|]. unfold vok. cbn [ptag]. apply Z.ltb_lt. apply Ht.
      * destruct (SU k d E) as [U1 [U2 U3]]. split; [lia|]. auto.
    + intros k Hk. apply Hnul. lia.
  - exact F.
  - lia.
  - exact H4.
  - intros k Hk. rewrite acell_put. destruct (Z.eqb_spec k i) as [->|N]; [discriminate|]. intros E.
    destruct (H5 k (vi_in _ _ _ _ _ I k ltac:(lia) E)) as [Q|Q]; [exfalso; exact (N Q) | exact Q].
  - exact Hnul.
  - unfold put. cbn [alost]. pose proof (vi_xp _ _ _ _ _ I). split; [exact X1|]. split; [lia|]. split; [exact X2 | exact X2'].
  - intros k Hk. cbn [aget]. unfold upd. destruct (Z.eqb_spec k i) as [->|N].
    + cbn [pxp]. exact X4.
    + pose proof (vi_pxp _ _ _ _ _ I k Hk). lia.
  - unfold put. cbn [alost acell]. intros El k. unfold upd. destruct (Z.eqb_spec k i); [discriminate|].
    apply (vi_lost _ _ _ _ _ I El).
Qed.

(** Losing the head slot. *)
Lemma lose_inv s st A hw top c xp :
  VInv s st A hw top -> vnil s <> 0 -> vxmax s < xp -> 0 <= xp ->
  let i := vnil s in
  vinv (mkV (if vnp s <? i then i else vnp s) (ptmp (aget (vpt s) i)) (vmax s)
            (mkArr (alen (vpt s)) (upd (aget (vpt s)) i (mkP c 0 0 0 0 (ptag (aget (vpt s) i))))) xp (vxmax s))
       (put st i Lost (amax st) true).
Proof.
  intros I Nn X1 X2 i.
  destruct (head_facts _ _ _ _ _ I Nn) as [R [Cf K]].
  pose proof (vi_sees _ _ _ _ _ I) as [[M1 [M2 M3]] SU SF]. pose proof (vi_hw _ _ _ _ _ I) as Hhw.
  set (p1 := mkP c 0 0 0 0 (ptag (aget (vpt s) i))).
  destruct (K (tmps (mkArr (alen (vpt s)) (upd (aget (vpt s)) i p1)))
              (occ (put st i Lost (amax st) true))) as [A' [hw' [H1 [H2 [H3 [H4 [H5 F]]]]]]].
  { unfold tmps. cbn [aget]. fold i. rewrite upd_same. reflexivity. }
  { intros k Hk. unfold tmps. cbn [aget]. rewrite upd_other by exact Hk. reflexivity. }
  { intros k. rewrite occ_put. reflexivity. }
  exists A', hw', top. fold i in R, Cf, H2, H3, F.
  assert (Hnul : forall k, 1 <= k <= hw' -> acell (put st i Lost (amax st) true) k = Free ->
                 vok (upd (aget (vpt s)) i p1 k) = false).
  { intros k Hk. rewrite acell_put. unfold upd. destruct (Z.eqb_spec k i) as [->|N]; [discriminate|].
    intros E. apply (vi_nul _ _ _ _ _ I); [|exact E]. lia. }
  assert (Hnp : vnp s <= (if vnp s <? i then i else vnp s) <= hw') by (destruct (Z.ltb_spec (vnp s) i); lia).
  constructor; cbn [vnp vnil vmax vpt vxp vxmax].
  - constructor; cbn [vnp vnil vmax vpt vxp vxmax amax alen aget put].
    + split; [exact M1|]. split; [exact M2|]. lia.
    + intros k d. change (upd (acell st) i Lost k) with (acell (put st i Lost (amax st) true) k).
      rewrite acell_put. unfold upd. destruct (Z.eqb_spec k i) as [->|N]; intros E; [discriminate|].
      destruct (SU k d E) as [U1 [U2 U3]]. split; [lia|]. auto.
    + intros k Hk. apply Hnul. lia.
  - exact F.
  - lia.
  - exact H4.
  - intros k Hk. rewrite acell_put. destruct (Z.eqb_spec k i) as [->|N]; [discriminate|]. intros E.
    destruct (H5 k (vi_in _ _ _ _ _ I k ltac:(lia) E)) as [Q|Q]; [exfalso; exact (N Q) | exact Q].
  - exact Hnul.
  - unfold put. cbn [alost]. pose proof (vi_xp _ _ _ _ _ I). split; [exact X2|]. split; [tauto|]. split; [discriminate | intros _; exact X1].
  - intros k Hk. cbn [aget]. unfold upd. destruct (Z.eqb_spec k i) as [->|N]; [|exact (vi_pxp _ _ _ _ _ I k Hk)].
    cbn [p1 pxp]. pose proof (vi_xp _ _ _ _ _ I). lia.
  - unfold put. cbn [alost]. discriminate.
Qed.

Lemma tag_assert tag : tag_ok tag -> c_assert ((0 <=? tag) && (tag <=? MG_NUL * 2 - 1)) = Ret tt.
Proof.
  unfold tag_ok, MG_NUL, c_assert. intros H. destruct (Z.leb_spec 0 tag), (Z.leb_spec tag (32768 * 2 - 1)); try lia. reflexivity.
Qed.

Lemma nil0_full s st A hw top : VInv s st A hw top -> vnil s = 0 -> full st.
Proof.
  intros I E k Hk Ef. pose proof (vi_free _ _ _ _ _ I) as [F1 F2 F3 F4].
  pose proof (vi_sees _ _ _ _ _ I) as [[M1 _] _ _].
  assert (Hin : In k (A ++ zrange (hw + 1) top)) by (apply F3; [lia | unfold occ; rewrite Ef; reflexivity]).
  destruct (A ++ zrange (hw + 1) top) as [|x L]; [contradiction|]. simpl in F1. destruct F1 as [F1 [N _]]. congruence.
Qed.

Lemma newPt_ok s st c tag grow :
  vinv s st -> tag_ok tag -> (forall g, grow = Some g -> 0 < g) ->
  (alost st = true -> is_bdy tag = false \/ grow = None) ->
  exists r s', newPt s c tag grow = Ret (r, s') /\ vmax s' = vmax s /\
    vfits st (PNew c tag grow) r (vnil s) (amax st) /\ vinv s' (vnext st (PNew c tag grow) r (vnil s) (amax st)).
Proof.
  intros [A [hw [top I]]] Ht Hg Hl. unfold newPt.
  pose proof (vi_sees _ _ _ _ _ I) as [[M1 [M2 M3]] _ _]. pose proof (vi_xp _ _ _ _ _ I) as [X1 [X0 [X2 X3]]].
  destruct (Z.eqb_spec (vnil s) 0) as [E0|N0].
  - exists 0, s. split; [reflexivity|]. split; [reflexivity|]. split.
    + right. left. split; [reflexivity|]. split; [exact E0|]. exact (nil0_full _ _ _ _ _ I E0).
    + cbn [vnext]. rewrite E0. cbn. exists A, hw, top. exact I.
  - destruct (head_facts _ _ _ _ _ I N0) as [R [Cf _]].
    rewrite rd_ok by lia. cbn [bind]. rewrite (tag_assert tag Ht).
    assert (Fit : vfits st (PNew c tag grow) (vnil s) (vnil s) (amax st)) by (left; split; [lia|]; split; [lia | exact Cf]).
    assert (Nx : vnext st (PNew c tag grow) (vnil s) (vnil s) (amax st) = put st (vnil s) (Used (c, 0, 0, tag)) (amax st) (alost st)).
    { cbn [vnext]. destruct (Z.eqb_spec (vnil s) 0); [congruence|reflexivity]. }
    destruct (Z.eqb_spec (Z.land tag MG_BDY) 0) as [Eb|Nb].
    + cbn [bind]. rewrite wr_ok by lia. cbn [bind].
      exists (vnil s). eexists. split; [reflexivity|]. split; [reflexivity|]. split; [exact Fit|]. rewrite Nx.
      apply (create_inv s st A hw top); auto; try lia.
    + assert (Bt : is_bdy tag = true) by (unfold is_bdy; destruct (Z.eqb_spec (Z.land tag MG_BDY) 0); congruence || reflexivity).
      destruct (Z.ltb_spec (vxmax s) (vxp s + 1)) as [Hx|Hx].
      * destruct grow as [g|].
        -- cbn [bind]. rewrite wr_ok by lia. cbn [bind].
           assert (El : alost st = false).
           { destruct (alost st) eqn:E; [|reflexivity]. destruct (Hl eq_refl); congruence. }
           specialize (X2 El). pose proof (Hg g eq_refl).
           exists (vnil s). eexists. split; [reflexivity|]. split; [reflexivity|]. split; [exact Fit|]. rewrite Nx.
           apply (create_inv s st A hw top); auto; try lia. all: try (rewrite El; discriminate).
        -- rewrite wr_ok by lia. cbn [bind].
           exists 0. eexists. split; [reflexivity|]. split; [reflexivity|]. split.
           ++ right. right. split; [reflexivity|]. split; [exact Bt|]. split; [reflexivity|]. split; [lia | exact Cf].
           ++ cbn [vnext Z.eqb]. destruct (Z.eqb_spec (vnil s) 0); [congruence|].
              apply (lose_inv s st A hw top); auto; lia.
      * cbn [bind]. rewrite wr_ok by lia. cbn [bind].
        assert (El : alost st = false).
        { destruct (alost st) eqn:E; [|reflexivity]. specialize (X3 eq_refl). lia. }
        exists (vnil s). eexists. split; [reflexivity|]. split; [reflexivity|]. split; [exact Fit|]. rewrite Nx.
        apply (create_inv s st A hw top); auto; try lia. all: try (rewrite El; discriminate).
Qed.

(** Deletion *)
Lemma delPt_ok s st i d :
  vinv s st -> acell st i = Used d ->
  exists s', delPt s i = Ret s' /\ vmax s' = vmax s /\ vinv s' (put st i Free (amax st) (alost st)).
Proof.
  intros [A [hw [top I]]] Ei. unfold delPt.
  pose proof (vi_sees _ _ _ _ _ I) as [[M1 [M2 M3]] SU SF]. pose proof (vi_hw _ _ _ _ _ I) as Hhw.
  destruct (SU i d Ei) as [Ri [Si Vi]]. pose proof (vi_pxp _ _ _ _ _ I i ltac:(lia)) as Px.
  rewrite rd_ok by lia. cbn [bind].
  assert (Ex : (if pxp (aget (vpt s) i) =? 0 then Ret tt else c_assert ((0 <=? pxp (aget (vpt s) i)) && (pxp (aget (vpt s) i) <=? vxmax s))) = Ret tt).
  { destruct (Z.eqb_spec (pxp (aget (vpt s) i)) 0); [reflexivity|]. unfold c_assert.
    destruct (Z.leb_spec 0 (pxp (aget (vpt s) i))), (Z.leb_spec (pxp (aget (vpt s) i)) (vxmax s)); try lia. reflexivity. }
  rewrite Ex. cbn [bind]. rewrite wr_ok by lia. cbn [bind].
  set (p1 := mkP 0 0 0 (vnil s) 0 MG_NUL). set (a := mkArr _ _).
  assert (Hnp : exists np, (if i =? vnp s then trim vok (S (Z.to_nat (vnp s))) a (vnp s) else Ret (vnp s)) = Ret np
      /\ 0 <= np <= vnp s /\ forall k, np < k <= vnp s -> vok (aget a k) = false).
  { destruct (Z.eqb_spec i (vnp s)) as [E|N].
    - destruct (trim_spec _ vok a (S (Z.to_nat (vnp s))) (vnp s)) as [m [T1 [T2 [_ T3]]]]; [unfold a; cbn [alen]; lia | lia|].
      exists m. auto.
    - exists (vnp s). split; [reflexivity|]. split; [lia|]. intros k Hk. lia. }
  destruct Hnp as [np [En [Rn Tn]]]. rewrite En. cbn [bind].
  eexists. split; [reflexivity|]. split; [reflexivity|].
  assert (Ha : forall k, aget a k = if k =? i then p1 else aget (vpt s) k) by reflexivity.
  exists (i :: A), hw, top.
  assert (Hnul : forall k, 1 <= k <= hw -> acell (put st i Free (amax st) (alost st)) k = Free -> vok (aget a k) = false).
  { intros k Hk. rewrite acell_put, Ha. destruct (Z.eqb_spec k i) as [->|N]; [reflexivity|].
    apply (vi_nul _ _ _ _ _ I). lia. }
  constructor; cbn [vnp vnil vmax vpt vxp vxmax].
  - constructor; cbn [vnp vnil vmax vpt vxp vxmax amax put].
    + split; [exact M1|]. split; [exact M2|]. lia.
    + intros k dd. change (upd (acell st) i Free k) with (acell (put st i Free (amax st) (alost st)) k). rewrite acell_put.
      destruct (Z.eqb_spec k i) as [->|N]; intros E; [discriminate|].
      destruct (SU k dd E) as [U1 [U2 U3]]. rewrite Ha. destruct (Z.eqb_spec k i); [congruence|].
      split; [|auto]. split; [lia|]. destruct (Z_le_gt_dec k np); [auto|].
      pose proof (Tn k ltac:(lia)) as T. rewrite Ha in T. destruct (Z.eqb_spec k i); congruence.
    + intros k Hk. apply Hnul. lia.
  - change ((i :: A) ++ zrange (hw + 1) top) with (i :: (A ++ zrange (hw + 1) top)).
    apply FInv_ext with (occ := fun k => if k =? i then false else occ st k).
    + apply FInv_push with (nil := vnil s) (nx := tmps (vpt s)).
      * exact (vi_free _ _ _ _ _ I).
      * lia.
      * unfold occ. rewrite Ei. reflexivity.
      * unfold tmps. rewrite Ha, Z.eqb_refl. reflexivity.
      * intros k Hk. unfold tmps. rewrite Ha. destruct (Z.eqb_spec k i); congruence.
    + intros k. rewrite occ_put. reflexivity.
  - lia.
  - intros k [<-|Hk]; [lia | apply (vi_A _ _ _ _ _ I k Hk)].
  - intros k Hk. rewrite acell_put. destruct (Z.eqb_spec k i) as [->|N]; [left; reflexivity|]. intros E.
    right. exact (vi_in _ _ _ _ _ I k Hk E).
  - exact Hnul.
  - exact (vi_xp _ _ _ _ _ I).
  - intros k Hk. rewrite Ha. destruct (Z.eqb_spec k i); [|exact (vi_pxp _ _ _ _ _ I k Hk)].
    cbn [p1 pxp]. pose proof (vi_xp _ _ _ _ _ I). lia.
  - unfold put. cbn [alost acell]. intros El k. unfold upd. destruct (Z.eqb_spec k i); [discriminate|].
    apply (vi_lost _ _ _ _ _ I El).
Qed.

Lemma setPt_ok s st i d c ref tmp flag tag :
  vinv s st -> acell st i = Used d -> tag_ok tag ->
  exists s', setPt s i c ref tmp flag tag = Ret s' /\ vmax s' = vmax s /\
    vinv s' (put st i (Used (c, ref, flag, tag)) (amax st) (alost st)).
Proof.
  intros [A [hw [top I]]] Ei Ht. unfold setPt.
  pose proof (vi_sees _ _ _ _ _ I) as [[M1 [M2 M3]] SU SF]. pose proof (vi_hw _ _ _ _ _ I) as Hhw.
  destruct (SU i d Ei) as [Ri [Si Vi]]. pose proof (vi_pxp _ _ _ _ _ I i ltac:(lia)) as Px.
  rewrite rd_ok by lia. cbn [bind]. rewrite wr_ok by lia. cbn [bind].
  eexists. split; [reflexivity|]. split; [reflexivity|].
  set (p1 := mkP _ _ _ _ _ _). set (a := mkArr _ _).
  assert (Ha : forall k, aget a k = if k =? i then p1 else aget (vpt s) k) by reflexivity.
  exists A, hw, top.
  assert (Hnul : forall k, 1 <= k <= hw -> acell (put st i (Used (c, ref, flag, tag)) (amax st) (alost st)) k = Free -> vok (aget a k) = false).
  { intros k Hk. rewrite acell_put, Ha. destruct (Z.eqb_spec k i) as [->|N]; [discriminate|].
    apply (vi_nul _ _ _ _ _ I). lia. }
  constructor; cbn [vnp vnil vmax vpt vxp vxmax].
  - constructor; cbn [vnp vnil vmax vpt vxp vxmax amax put].
    + split; [exact M1|]. split; [exact M2|]. lia.
    + intros k dd. change (upd (acell st) i (Used (c, ref, flag, tag)) k) with (acell (put st i (Used (c, ref, flag, tag)) (amax st) (alost st)) k).
      rewrite acell_put, Ha. destruct (Z.eqb_spec k i) as [->|N]; intros E.
      * inversion E; subst dd. split; [lia|]. split; [reflexivity|]. unfold vok. cbn [ptag p1]. apply Z.ltb_lt. apply Ht.
      * auto.
    + intros k Hk. apply Hnul. lia.
  - apply FInv_ext with (occ := occ st).
    + apply FInv_frame with (nx := tmps (vpt s)); [exact (vi_free _ _ _ _ _ I)|].
      intros k Hk. unfold tmps. rewrite Ha. destruct (Z.eqb_spec k i) as [->|]; [|reflexivity].
      unfold occ in Hk. rewrite Ei in Hk. discriminate.
    + intros k. rewrite occ_put. destruct (Z.eqb_spec k i) as [->|]; [|reflexivity]. unfold occ. rewrite Ei. reflexivity.
  - lia.
  - exact (vi_A _ _ _ _ _ I).
  - intros k Hk. rewrite acell_put. destruct (Z.eqb_spec k i) as [->|N]; [discriminate|]. exact (vi_in _ _ _ _ _ I k Hk).
  - exact Hnul.
  - exact (vi_xp _ _ _ _ _ I).
  - intros k Hk. rewrite Ha. destruct (Z.eqb_spec k i) as [->|].
    + exact Px.
    + exact (vi_pxp _ _ _ _ _ I k Hk).
  - unfold put. cbn [alost acell]. intros El k. unfold upd. destruct (Z.eqb_spec k i); [discriminate|].
    apply (vi_lost _ _ _ _ _ I El).
Qed.

(** Growth of a full array. *)
Lemma grow_inv_pts s st g :
  vinv s st -> vnil s = 0 -> alost st = false -> 0 < g ->
  exists a, link_pts (vnp s + 1) (vmax s + g - 1) (arecalloc (vpt s) (vmax s + g + 1) point0) = Ret a /\
    vinv (mkV (vnp s) (vnp s + 1) (vmax s + g) a (vxp s) (vxmax s)) (mkVS (acell st) (vmax s + g) (alost st)).
Proof.
  intros [A [hw [top I]]] E0 El Hg.
  pose proof (vi_sees _ _ _ _ _ I) as [[M1 [M2 M3]] SU SF]. pose proof (vi_hw _ _ _ _ _ I) as Hhw.
  pose proof (nil0_full _ _ _ _ _ I E0) as Full.
  assert (Hcell : forall k, (acell st k = Free \/ exists d, acell st k = Used d)).
  { intros k. destruct (acell st k) eqn:E; [left; reflexivity | right; eauto | exfalso; exact (vi_lost _ _ _ _ _ I El k E)]. }
  assert (Hnp : vmax s - 1 <= vnp s).
  { destruct (Z_le_gt_dec (vmax s) 1); [lia|].
    destruct (Hcell (vmax s - 1)) as [E|[d E]]; [exfalso; apply (Full (vmax s - 1)); [lia | exact E]|].
    destruct (SU _ d E). lia. }
  assert (Hused : forall k, occ st k = true <-> 1 <= k <= vnp s).
  { intros k. unfold occ. split.
    - intros E. destruct (Hcell k) as [Ef|[d Ed]]; [rewrite Ef in E; discriminate|]. apply (SU k d Ed).
    - intros Hk. destruct (Hcell k) as [Ef|[d Ed]]; [exfalso|rewrite Ed; reflexivity].
      pose proof (vi_in _ _ _ _ _ I k ltac:(lia) Ef) as Hin.
      pose proof (vi_free _ _ _ _ _ I) as [F1 _ _ _].
      destruct A as [|x A]; [contradiction|]. simpl in F1. destruct F1 as [F1 [N _]]. congruence. }
  assert (Lnil : A ++ zrange (hw + 1) top = []).
  { pose proof (vi_free _ _ _ _ _ I) as [F1 _ _ _]. destruct (A ++ zrange (hw + 1) top); [reflexivity|].
    simpl in F1. destruct F1 as [F1 [N _]]. congruence. }
  destruct (link_pts_ok (vnp s + 1) (vmax s + g - 1) (arecalloc (vpt s) (vmax s + g + 1) point0)) as [a [E [L H]]]; [lia|cbn [alen arecalloc]; lia|].
  cbn [alen aget arecalloc] in L, H.
  exists a. split; [exact E|]. exists [], (vnp s), (Z.max (vnp s + 1) (vmax s + g - 1)).
  assert (Hlow : forall k, k <= vnp s -> aget a k = aget (vpt s) k).
  { intros k Hk. rewrite H. destruct (Z.leb_spec (vnp s + 1) k); [lia|]. cbn [andb].
    destruct (Z.ltb_spec k (alen (vpt s))); [reflexivity|lia]. }
  assert (Hno : forall k, 1 <= k <= vnp s -> acell st k <> Free).
  { intros k Hk Ef. apply Hused in Hk. unfold occ in Hk. rewrite Ef in Hk. discriminate. }
  constructor; cbn [vnp vnil vmax vpt vxp vxmax amax acell alost app].
  - constructor; cbn [vnp vnil vmax vpt vxp vxmax amax acell].
    + lia.
    + intros k d Ek. destruct (SU k d Ek) as [U1 U2]. rewrite Hlow by lia. auto.
    + intros k Hk Ef. exfalso. exact (Hno k Hk Ef).
  - apply FInv_relink.
    + lia.
    + intros k. unfold occ. cbn [acell]. apply Hused.
    + intros k Hk. unfold tmps. rewrite H. destruct (Z.leb_spec (vnp s + 1) k), (Z.ltb_spec k (vmax s + g - 1)); try lia. reflexivity.
    + intros k Hk Hk2. unfold tmps. rewrite H.
      destruct (Z.leb_spec (vnp s + 1) k), (Z.ltb_spec k (vmax s + g - 1)); try lia. cbn [andb].
      destruct (Z.ltb_spec k (alen (vpt s))); [|reflexivity].
      assert (k = vmax s) as -> by lia.
      apply (f_last _ _ _ _ _ (vi_free _ _ _ _ _ I)); [|rewrite Lnil; intros []].
      destruct (occ st (vmax s)) eqn:Eo; [apply Hused in Eo; lia | reflexivity].
  - lia.
  - intros k [].
  - intros k Hk Ef. exfalso. exact (Hno k Hk Ef).
  - intros k Hk Ef. exfalso. exact (Hno k Hk Ef).
  - exact (vi_xp _ _ _ _ _ I).
  - intros k Hk. pose proof (vi_xp _ _ _ _ _ I) as [_ [X _]].
    assert (Q : 0 <= pxp (if k <? alen (vpt s) then aget (vpt s) k else point0) <= vxmax s).
    { destruct (Z.ltb_spec k (alen (vpt s))); [apply (vi_pxp _ _ _ _ _ I); lia | cbn; lia]. }
    rewrite H. destruct (_ && _); exact Q.
  - exact (vi_lost _ _ _ _ _ I).
Qed.

Lemma newPtR_ok s st c tag g1 gap g2 :
  vinv s st -> tag_ok tag -> 0 < g1 -> 0 < g2 -> (forall g, gap = Some g -> 0 < g) -> alost st = false ->
  exists r s', newPtR s c tag (Some g1) gap (Some g2) true = Ret (r, s') /\
    vfits st (PNewR c tag g1 gap g2) r (vnil s) (vmax s') /\
    vinv s' (vnext st (PNewR c tag g1 gap g2) r (vnil s) (vmax s')).
Proof.
  intros I Ht H1 H2 Hg El. unfold newPtR.
  pose proof I as [A [hw [top I0]]]. pose proof (vi_sees _ _ _ _ _ I0) as [[M1 _] _ _].
  destruct (newPt_ok s st c tag (Some g1) I Ht) as [r [s1 [E [Em [F I1]]]]].
  { intros g Eg. inversion Eg. lia. } { rewrite El. discriminate. }
  rewrite E. cbn [bind]. destruct F as [[Nr [Rr Cr]]|[[Er [Es Fu]]|[_ [_ [Q _]]]]]; [| |discriminate].
  - destruct (Z.eqb_spec r 0); [congruence|]. exists r, s1. split; [reflexivity|]. rewrite Em, M1. split.
    + left. auto.
    + cbn [vnext] in I1 |- *. destruct (Z.eqb_spec r 0); [congruence|]. exact I1.
  - rewrite Er in *. cbn [Z.eqb]. cbn [vnext Z.eqb] in I1. rewrite Es in I1. cbn [Z.eqb] in I1.
    assert (Es1 : s1 = s).
    { unfold newPt in E. rewrite Es in E. cbn in E. congruence. }
    rewrite Es1 in *. unfold growPt. destruct gap as [g|].
    + destruct (grow_inv_pts s st g I Es El (Hg g eq_refl)) as [a [Ea I2]]. rewrite Ea. cbn [bind].
      destruct (newPt_ok _ _ c tag (Some g2) I2 Ht) as [r2 [s2 [E2 [Em2 [F2 I3]]]]].
      { intros g' Eg. inversion Eg. lia. } { cbn [alost]. rewrite El. discriminate. }
      exists r2, s2. split; [exact E2|]. cbn [vmax] in Em2. cbn [vnil] in F2, I3.
      pose proof I0 as [[[_ [_ M3]] _ _] _ _ _ _ _ _ _ _].
      destruct F2 as [[Nr [Rr Cr]]|[[_ [Q _]]|[_ [_ [Q _]]]]]; [|lia|discriminate].
      cbn [amax acell] in *. split.
      * right. left. exists g. split; [reflexivity|]. split; [lia|]. split; [exact Fu|]. split; [lia|exact Cr].
      * cbn [vnext] in I3 |- *. destruct (Z.eqb_spec r2 0); [congruence|]. rewrite Em2. exact I3.
    + exists 0, s. split; [reflexivity|]. split; [right; right; auto|]. exact I.
Qed.

Lemma vstep_inv s st o r slot s' : vinv s st -> vok_op st o -> vstep s o = Ret (r, slot, s') -> vinv s' (vnext st o r slot (vmax s')).
Proof.
  intros IH Hok E. destruct o as [c tag grow|c tag g1 gap g2|i|i c ref tmp flag tag]; cbn [vok_op] in Hok; cbn [vstep] in E.
  + destruct Hok as [Ht [Hg Hl]]. destruct (newPt_ok s st c tag grow IH Ht Hg Hl) as [r2 [s2 [E2 [Em [_ I]]]]].
    rewrite E2 in E. cbn [bind] in E. inversion E; subst. exact I.
  + destruct Hok as [Ht [H1 [H2 [Hg Hl]]]]. destruct (newPtR_ok s st c tag g1 gap g2 IH Ht H1 H2 Hg Hl) as [r2 [s2 [E2 [_ I]]]].
    rewrite E2 in E. cbn [bind] in E. inversion E; subst. exact I.
  + destruct Hok as [d Hd]. destruct (delPt_ok s st i d IH Hd) as [s2 [E2 [_ I]]].
    rewrite E2 in E. cbn [bind] in E. inversion E; subst. exact I.
  + destruct Hok as [[d Hd] Ht]. destruct (setPt_ok s st i d c ref tmp flag tag IH Hd Ht) as [s2 [E2 [_ I]]].
    rewrite E2 in E. cbn [bind] in E. inversion E; subst. exact I.
Qed.

(** Every reachable state satisfies the invariant. *)
Lemma vreach_inv s st : vreach s st -> vinv s st.
Proof.
  induction 1 as [np npmax xpmax s Hn Hx E | s st o r slot s' _ IH Hok E].
  - destruct (alloc_pts_inv np npmax xpmax Hn Hx) as [s2 [E2 I]]. congruence.
  - exact (vstep_inv s st o r slot s' IH Hok E).
Qed.

Lemma vprogress s st o : vinv s st -> vok_op st o ->
  exists r slot s', vstep s o = Ret (r, slot, s') /\ vfits st o r slot (vmax s').
Proof.
  intros I Hok. destruct o as [c tag grow|c tag g1 gap g2|i|i c ref tmp flag tag]; cbn [vok_op] in Hok; cbn [vstep].
  - destruct Hok as [Ht [Hg Hl]]. destruct (newPt_ok s st c tag grow I Ht Hg Hl) as [r2 [s2 [E2 [Em [F _]]]]].
    rewrite E2. cbn [bind]. eauto 6.
  - destruct Hok as [Ht [H1 [H2 [Hg Hl]]]]. destruct (newPtR_ok s st c tag g1 gap g2 I Ht H1 H2 Hg Hl) as [r2 [s2 [E2 [F _]]]].
    rewrite E2. cbn [bind]. eauto 6.
  - destruct Hok as [d Hd]. destruct (delPt_ok s st i d I Hd) as [s2 [E2 _]]. rewrite E2. cbn [bind]. exists 0, 0, s2. split; [reflexivity|exact Logic.I].
  - destruct Hok as [[d Hd] Ht]. destruct (setPt_ok s st i d c ref tmp flag tag I Hd Ht) as [s2 [E2 _]].
    rewrite E2. cbn [bind]. exists 0, 0, s2. split; [reflexivity|exact Logic.I].
Qed.
