(** The packing functions as a whole. *)
From Coq Require Import ZArith List Lia Bool.
From Verif Require Import CBase Chain MeshModel PoolModel PoolSpec PoolProofs PoolTet PackModel PackPlan PackPts PackTet.
Import ListNotations.
Open Scope Z_scope.

(** The last live entry. *)
Lemma last_live (ok : Z -> bool) n : (exists i, 1 <= i <= n /\ ok i = true) ->
  exists l, 1 <= l <= n /\ ok l = true /\ forall j, l < j <= n -> ok j = false.
Proof.
  intros [i [Hi Oi]]. 
  assert (H : forall f, (forall m, 1 <= m <= n -> (Z.to_nat (n - m) <= f)%nat -> ok m = true ->
            exists l, 1 <= l <= n /\ ok l = true /\ forall j, l < j <= n -> ok j = false)).
  { induction f as [|f IH]; intros m Hm Hf Om.
    - exists m. split; [lia|]. split; [exact Om|]. intros j Hj. lia.
    - destruct (existsb (fun d => ok (m + 1 + Z.of_nat d)) (seq 0 (Z.to_nat (n - m)))) eqn:E.
      + apply existsb_exists in E. destruct E as [d [Hd Od]]. apply in_seq in Hd. apply (IH (m + 1 + Z.of_nat d)); [lia|lia|exact Od].
      + exists m. split; [lia|]. split; [exact Om|]. intros j Hj. destruct (ok j) eqn:Oj; [|reflexivity].
        assert (X : existsb (fun d => ok (m + 1 + Z.of_nat d)) (seq 0 (Z.to_nat (n - m))) = true); [|congruence].
        apply existsb_exists. exists (Z.to_nat (j - m - 1)). split; [apply in_seq; lia|].
        replace (m + 1 + Z.of_nat (Z.to_nat (j - m - 1))) with j by lia. exact Oj. }
  apply (H (Z.to_nat (n - i)) i); [exact Hi|lia|exact Oi].
Qed.

(** The numbering: sources in the order of the new numbers. *)
Definition vplan (a : arr point) (l : Z) : list Z := plan (okf a) (Z.to_nat l) 1 l.

Lemma plan_pred_ext (ok ok' : Z -> bool) : (forall j, ok j = ok' j) -> forall f k l, plan ok f k l = plan ok' f k l.
Proof.
  intros E. assert (D : forall f k l, down ok f k l = down ok' f k l).
  { induction f as [|f IH]; intros k l; [reflexivity|]. cbn [down]. rewrite E. destruct (l <=? k); [reflexivity|]. destruct (ok' l); [reflexivity|apply IH]. }
  induction f as [|f IH]; intros k l; [reflexivity|]. cbn [plan]. rewrite E. rewrite D. destruct (l <? k); [reflexivity|]. destruct (ok' k); f_equal; apply IH.
Qed.

Lemma plan_nth_in (P : list Z) j : 0 <= j < plen P -> In (nth (Z.to_nat j) P 0) P.
Proof. intros H. apply nth_In. unfold plen in H. lia. Qed.

Lemma mark_ok n a l :
  n < alen a -> 1 <= l <= n -> okf a l = true -> (forall j, l < j <= n -> okf a j = false) ->
  let P := vplan a l in
  exists a', mark_packedPoints n a = Ret (a', plen P, corners a P) /\ alen a' = alen a /\
    (forall j, 0 <= j < plen P -> aget a' (nth (Z.to_nat j) P 0) = mark1 (aget a (nth (Z.to_nat j) P 0)) (1 + j)) /\
    (forall i, 1 <= i <= n -> ~ In i P -> aget a' i = set_tmp (aget a i) 0) /\
    (forall i, ~ 1 <= i <= n -> aget a' i = aget a i).
Proof.
  intros Hn Hl Ol Hgap P. unfold mark_packedPoints.
  destruct (@for_range_inv (arr point) (fun k b => alen b = alen a /\ forall i, aget b i = if (1 <=? i) && (i <? k) then set_tmp (aget a i) 0 else aget a i)
     (fun k a => p <- rd a k ;; wr a k (set_tmp p 0)) 1 n a) as [a0 [E0 [L0 I0]]].
  - lia.
  - split; [reflexivity|]. intros i. destruct (Z.leb_spec 1 i), (Z.ltb_spec i 1); reflexivity || lia.
  - intros k b Hk [Lb Ib]. rewrite rd_ok by lia. cbn [bind]. rewrite wr_ok by lia. eexists. split; [reflexivity|]. split; [exact Lb|].
    intros i. cbn [aget]. destruct (Z.eq_dec i k) as [->|Nk].
    + rewrite upd_same, Ib. destruct (Z.leb_spec 1 k), (Z.ltb_spec k k), (Z.ltb_spec k (k + 1)); try lia. reflexivity.
    + rewrite upd_other by auto. rewrite Ib. destruct (Z.leb_spec 1 i), (Z.ltb_spec i k), (Z.ltb_spec i (k + 1)); try lia; reflexivity.
  - rewrite E0. cbn [bind].
    assert (Ok0 : forall j, okf a0 j = okf a j) by (intros j; unfold okf; rewrite I0; destruct (_ && _); reflexivity).
    destruct (mark_loop_ok (okf a) (S (Z.to_nat n)) a0 1 (n + 1) 0 l) as [a' [E [L [M1 M2]]]];
      [lia|lia|lia|lia|right; exact Ol|intros j Hj; apply Hgap; lia|intros j _; apply Ok0|].
     replace (Z.to_nat (l - 1 + 1)) with (Z.to_nat l) in * by lia. fold (vplan a l) in *. fold P in E, M1, M2.
      rewrite E. cbn [bind]. rewrite Z.eqb_refl. cbn [c_assert bind].
      assert (HP : forall i, In i P <-> 1 <= i <= l /\ okf a i = true).
      { intros i. unfold P, vplan. apply plan_in; [lia|right; exact Ol]. }
      assert (Mj : forall j, 0 <= j < plen P -> aget a' (nth (Z.to_nat j) P 0) = mark1 (aget a (nth (Z.to_nat j) P 0)) (1 + j)).
      { intros j Hj. rewrite M1 by exact Hj. rewrite I0. destruct (_ && _); reflexivity. }
      assert (Chk : for_range 1 n (fun k u => p <- rd a' k ;; c_assert (negb (vok p) || negb (ptmp p =? 0))) tt = Ret tt).
      { destruct (@for_range_inv unit (fun _ _ => True) (fun k u => p <- rd a' k ;; c_assert (negb (vok p) || negb (ptmp p =? 0))) 1 n tt) as [u [Eu _]]; auto; [lia| |destruct u; exact Eu].
        intros k u Hk _. exists tt. split; [|exact Logic.I]. rewrite rd_ok by lia. cbn [bind].
        destruct (in_dec Z.eq_dec k P) as [Hin|Hnin].
        - destruct (In_nth P k 0 Hin) as [j [Hj Ej]].
          rewrite <- Ej. replace j with (Z.to_nat (Z.of_nat j)) by lia. rewrite Mj by (unfold plen; lia).
          cbn [mark1 ptmp]. destruct (Z.eqb_spec (1 + Z.of_nat j) 0); [lia|]. rewrite orb_true_r. reflexivity.
        - rewrite M2 by exact Hnin. assert (Ok : okf a k = false).
          { destruct (okf a k) eqn:Q; [|reflexivity]. destruct (Z_le_gt_dec k l); [exfalso; apply Hnin, HP; split; [lia|exact Q]|]. rewrite Hgap in Q by lia. discriminate. }
          rewrite <- Ok0 in Ok. unfold okf in Ok. rewrite Ok. reflexivity. }
      rewrite Chk. cbn [bind]. exists a'.
      split. { f_equal. f_equal; [f_equal; lia|]. rewrite Z.add_0_l. unfold corners. f_equal. apply filter_ext_in. intros x Hx. unfold corner. rewrite I0. destruct (_ && _); reflexivity. }
      split; [lia|]. split; [exact Mj|]. split.
      * intros i Hi Hnin. rewrite M2 by exact Hnin. rewrite I0. destruct (Z.leb_spec 1 i), (Z.ltb_spec i (n + 1)); try lia. reflexivity.
      * intros i Hi. assert (Hnin : ~ In i P) by (rewrite HP; lia). rewrite M2 by exact Hnin. rewrite I0.
        destruct (Z.leb_spec 1 i), (Z.ltb_spec i (n + 1)); try lia; reflexivity.
Qed.

Lemma trim_last {A} (ok : A -> bool) (a : arr A) n l :
  n < alen a -> 1 <= l <= n -> ok (aget a l) = true -> (forall j, l < j <= n -> ok (aget a j) = false) ->
  trim ok (S (Z.to_nat n)) a n = Ret l.
Proof.
  intros Hn Hl Ol Hgap. destruct (trim_spec _ ok a (S (Z.to_nat n)) n) as [m [E [R [O G]]]]; [lia|lia|].
  rewrite E. f_equal. destruct (Z_lt_le_dec m l); [rewrite G in Ol by lia; discriminate|].
  destruct (Z_le_gt_dec m l); [lia|]. rewrite Hgap in O by lia. specialize (O ltac:(lia)). discriminate.
Qed.

Lemma pack_sol_ok n pts size m l :
  0 < size -> n < alen pts -> 1 <= l <= n -> okf pts l = true -> (forall j, l < j <= n -> okf pts j = false) -> (n + 1) * size <= alen m ->
  let P := vplan pts l in
  exists m', pack_sol n pts size m = Ret (m', plen P) /\ alen m' = alen m /\
    (forall j i, 0 <= j < plen P -> 0 <= i < size -> aget m' ((1 + j) * size + i) = aget m (nth (Z.to_nat j) P 0 * size + i)).
Proof.
  intros Hs Hn Hl Ol Hgap Hm P. unfold pack_sol. rewrite (trim_last vok pts n l Hn Hl Ol Hgap). cbn [bind].
  destruct (sol_loop_ok pts size Hs (S (Z.to_nat n)) m 1 l) as [m' [E [L [M _]]]]; [lia|lia|lia|exact Ol| |].
  { assert ((l + 1) * size <= (n + 1) * size) by (apply Z.mul_le_mono_nonneg_r; lia). lia. }
  replace (Z.to_nat (l - 1 + 1)) with (Z.to_nat l) in * by lia. fold (vplan pts l) in *. fold P in E, M.
  exists m'. rewrite E. split; [f_equal; f_equal; lia|]. split; [exact L|exact M].
Qed.

Lemma pack_pointArray_ok s l :
  vnp s <= vmax s -> alen (vpt s) = vmax s + 1 -> 1 <= l <= vnp s -> okf (vpt s) l = true -> (forall j, l < j <= vnp s -> okf (vpt s) j = false) ->
  (forall i, 1 <= i <= vnp s -> 0 <= pxp (aget (vpt s) i) <= vxmax s) ->
  let P := vplan (vpt s) l in
  exists s', pack_pointArray s = Ret s' /\ vnp s' = plen P /\ vnil s' = (if vmax s - 1 <=? plen P then 0 else plen P + 1) /\
    vmax s' = vmax s /\ vxp s' = vxp s /\ vxmax s' = vxmax s /\ alen (vpt s') = alen (vpt s) /\
    (forall j, 0 <= j < plen P -> aget (vpt s') (1 + j) = set_tmp (aget (vpt s) (nth (Z.to_nat j) P 0)) 0) /\
    (forall i, plen P < i < vmax s - 1 -> ptmp (aget (vpt s') i) = i + 1) /\
    (forall i, plen P < i <= vnp s -> vok (aget (vpt s') i) = false) /\
    (forall i, plen P < i -> vnp s < i -> vok (aget (vpt s') i) = vok (aget (vpt s) i)) /\
    (forall i, plen P < i -> vnp s < i -> vmax s - 1 <= i -> aget (vpt s') i = aget (vpt s) i) /\
    (forall i, plen P < i -> pxp (aget (vpt s') i) = pxp (aget (vpt s) i) \/ pxp (aget (vpt s') i) = 0).
Proof.
  intros Hn Hlen Hl Ol Hgap Hxp P. unfold pack_pointArray.
  destruct (del_tail_ok (S (Z.to_nat (vnp s))) s l) as [s1 [E1 [D1 [D2 [D3 [D4 [D5 [D6 [D7 D8]]]]]]]]]; auto; try lia.
  rewrite E1. cbn [bind].
  assert (Ol1 : okf (vpt s1) l = true) by (unfold okf; rewrite D6 by lia; exact Ol).
  assert (EP : plan (okf (vpt s1)) (Z.to_nat (l - 1 + 1)) 1 l = P).
  { unfold P, vplan. replace (Z.to_nat (l - 1 + 1)) with (Z.to_nat l) by lia. apply plan_ext; [|lia|right; exact Ol1].
    intros j Hj. unfold okf. rewrite D6 by lia. reflexivity. }
  destruct (pts_loop_ok (S (Z.to_nat (vnp s1))) (vpt s1) 1 (vnp s1)) as [a [E2 [L2 [Q1 [Q2 [Q3 Q4]]]]]]; [lia|lia|lia|rewrite D1; exact Ol1|].
  rewrite D1 in *. rewrite EP in *. rewrite E2. cbn [bind].
  assert (Hlen_P : 0 <= plen P <= l).
  { split; [unfold plen; lia|]. unfold P, vplan. pose proof (plan_len (okf (vpt s)) (Z.to_nat l) 1 l ltac:(lia) (or_intror Ol)). lia. }
  replace (1 - 1 + plen P) with (plen P) in * by lia.
  destruct (@for_range_inv (arr point) (fun k b => alen b = alen a /\ forall i, aget b i = if (1 <=? i) && (i <? k) then set_tmp (aget a i) 0 else aget a i)
     (fun k a => p <- rd a k ;; wr a k (set_tmp p 0)) 1 (plen P) a) as [b [Eb [Lb Ib]]].
  - lia.
  - split; [reflexivity|]. intros i. destruct (Z.leb_spec 1 i), (Z.ltb_spec i 1); reflexivity || lia.
  - intros k c Hk [Lc Ic]. rewrite rd_ok by lia. cbn [bind]. rewrite wr_ok by lia. eexists. split; [reflexivity|]. split; [exact Lc|].
    intros i. cbn [aget]. destruct (Z.eq_dec i k) as [->|Nk].
    + rewrite upd_same, Ic. destruct (Z.leb_spec 1 k), (Z.ltb_spec k k), (Z.ltb_spec k (k + 1)); try lia. reflexivity.
    + rewrite upd_other by auto. rewrite Ic. destruct (Z.leb_spec 1 i), (Z.ltb_spec i k), (Z.ltb_spec i (k + 1)); try lia; reflexivity.
  - rewrite Eb. cbn [bind]. rewrite D2.
    set (nil := if vmax s - 1 <=? plen P then 0 else plen P + 1).
    assert (Hc : exists c, (if nil =? 0 then Ret b else link_pts nil (vmax s - 1) b) = Ret c /\ alen c = alen b /\
       forall i, aget c i = if (plen P <? i) && (i <? vmax s - 1) then set_tmp (aget b i) (i + 1) else aget b i).
    { unfold nil. destruct (Z.leb_spec (vmax s - 1) (plen P)).
      - rewrite Z.eqb_refl. exists b. split; [reflexivity|]. split; [reflexivity|]. intros i.
        destruct (Z.ltb_spec (plen P) i), (Z.ltb_spec i (vmax s - 1)); try lia; reflexivity.
      - destruct (Z.eqb_spec (plen P + 1) 0); [lia|]. destruct (link_pts_ok (plen P + 1) (vmax s - 1) b) as [c [Ec [Lc Ic]]]; [lia|lia|].
        exists c. split; [exact Ec|]. split; [exact Lc|]. intros i. rewrite Ic.
        destruct (Z.ltb_spec (plen P) i), (Z.leb_spec (plen P + 1) i); try lia; reflexivity. }
    destruct Hc as [c [Ec [Lc Ic]]]. rewrite Ec. cbn [bind].
    assert (Hb : forall i, plen P < i -> aget b i = aget a i).
    { intros i Hi. rewrite Ib. destruct (Z.leb_spec 1 i), (Z.ltb_spec i (plen P + 1)); try lia; reflexivity. }
    eexists. split; [reflexivity|]. cbn [vnp vnil vmax vxp vxmax vpt].
    split; [reflexivity|]. split; [reflexivity|]. split; [reflexivity|]. split; [exact D3|]. split; [exact D4|]. split; [lia|].
    split; [|split; [|split; [|split; [|split]]]].
    + intros j Hj. rewrite Ic. destruct (Z.ltb_spec (plen P) (1 + j)); [lia|]. cbn [andb]. rewrite Ib.
      destruct (Z.leb_spec 1 (1 + j)), (Z.ltb_spec (1 + j) (plen P + 1)); try lia. cbn [andb]. rewrite Q1 by exact Hj.
      f_equal. apply D6. left. assert (HPl : forall x, In x P -> x <= l).
      { intros x Hx. unfold P, vplan in Hx. apply plan_in in Hx; [lia|lia|right; exact Ol]. }
      apply HPl, plan_nth_in. exact Hj.
    + intros i Hi. rewrite Ic. destruct (Z.ltb_spec (plen P) i), (Z.ltb_spec i (vmax s - 1)); try lia. reflexivity.
    + intros i Hi. rewrite Ic. assert (V : vok (aget b i) = false).
      { rewrite Hb by lia. destruct (Z_le_gt_dec i l); [apply Q4; lia|].
        destruct (Q3 i ltac:(lia)) as [Q|[Q _]]; rewrite Q; [apply D7; lia|reflexivity]. }
      destruct (_ && _); exact V.
    + intros i Hi Hi2. rewrite Ic. assert (V : vok (aget b i) = vok (aget (vpt s) i)).
      { rewrite Hb by lia. destruct (Q3 i Hi) as [Q|[_ Q]]; [|lia]. rewrite Q. rewrite D6 by lia. reflexivity. }
      destruct (_ && _); exact V.
    + intros i Hi Hi2 Hi3. rewrite Ic. destruct (Z.ltb_spec (plen P) i), (Z.ltb_spec i (vmax s - 1)); try lia.
      cbn [andb]. rewrite Hb by lia. destruct (Q3 i Hi) as [Q|[_ Q]]; [|lia]. rewrite Q. apply D6. lia.
    + intros i Hi. rewrite Ic. assert (V : pxp (aget b i) = pxp (aget (vpt s) i) \/ pxp (aget b i) = 0).
      { rewrite Hb by lia. destruct (Q3 i Hi) as [Q|[Q _]]; rewrite Q; [apply D8|right; reflexivity]. }
      destruct (_ && _); exact V.
Qed.

(** ** Vertices of the elements *)
Lemma update_ok pts ne tet :
  0 <= ne < alen tet ->
  (forall k, 1 <= k <= ne -> eokf tet k = true) ->
  (forall k i, 1 <= k <= ne -> 0 <= i < 4 -> 0 <= tv (aget tet k) i < alen pts) ->
  exists tet', update_eltsVertices pts ne tet = Ret tet' /\ alen tet' = alen tet /\
    (forall k, ~ 1 <= k <= ne -> aget tet' k = aget tet k) /\
    (forall k, 1 <= k <= ne -> let t := aget tet k in let t' := aget tet' k in
       (forall i, 0 <= i < 4 -> tv t' i = ptmp (aget pts (tv t i))) /\ tref t' = tref t /\ txt t' = txt t /\ tmark t' = tmark t /\ tq t' = tq t).
Proof.
  intros Hn Hok Hr. unfold update_eltsVertices.
  set (nt := fun t => mkT (ptmp (aget pts (v0 t))) (ptmp (aget pts (v1 t))) (ptmp (aget pts (v2 t))) (ptmp (aget pts (v3 t))) (tref t) (txt t) (tmark t) (tq t)).
  destruct (@for_range_inv (arr tetra) (fun k b => alen b = alen tet /\ forall i, aget b i = if (1 <=? i) && (i <? k) then nt (aget tet i) else aget tet i)
     (fun k tet => t <- rd tet k ;; if eok t then t' <- upd_tetra pts t ;; wr tet k t' else Ret tet) 1 ne tet) as [b [E [L I]]].
  - lia.
  - split; [reflexivity|]. intros i. destruct (Z.leb_spec 1 i), (Z.ltb_spec i 1); reflexivity || lia.
  - intros k b Hk [Lb Ib]. rewrite rd_ok by lia. cbn [bind].
    assert (Ek : aget b k = aget tet k) by (rewrite Ib; destruct (Z.ltb_spec k k); [lia|rewrite andb_false_r; reflexivity]).
    rewrite Ek. pose proof (Hok k Hk) as Ok. unfold eokf in Ok. rewrite Ok. unfold upd_tetra.
    pose proof (Hr k 0 Hk ltac:(lia)) as H0. pose proof (Hr k 1 Hk ltac:(lia)) as H1. pose proof (Hr k 2 Hk ltac:(lia)) as H2. pose proof (Hr k 3 Hk ltac:(lia)) as H3.
    cbn in H0, H1, H2, H3. rewrite !rd_ok by assumption. cbn [bind]. rewrite wr_ok by lia. eexists. split; [reflexivity|].
    split; [exact Lb|]. intros i. cbn [aget]. destruct (Z.eq_dec i k) as [->|Nk].
    + rewrite upd_same. destruct (Z.leb_spec 1 k), (Z.ltb_spec k (k + 1)); try lia. reflexivity.
    + rewrite upd_other by auto. rewrite Ib. destruct (Z.leb_spec 1 i), (Z.ltb_spec i k), (Z.ltb_spec i (k + 1)); try lia; reflexivity.
  - exists b. split; [exact E|]. split; [exact L|]. split.
    + intros k Hk. rewrite I. destruct (Z.leb_spec 1 k), (Z.ltb_spec k (ne + 1)); try lia; reflexivity.
    + intros k Hk. cbv zeta. rewrite I. destruct (Z.leb_spec 1 k), (Z.ltb_spec k (ne + 1)); try lia. cbn [andb].
      split; [|repeat split; reflexivity]. intros i Hi.
      assert (C : i = 0 \/ i = 1 \/ i = 2 \/ i = 3) by lia. destruct C as [->|[->|[->| ->]]]; reflexivity.
Qed.

(** ** Vertices *)
Lemma pack_points_ok s ne tet l :
  vnp s <= vmax s -> alen (vpt s) = vmax s + 1 -> 1 <= l <= vnp s -> okf (vpt s) l = true -> (forall j, l < j <= vnp s -> okf (vpt s) j = false) ->
  (forall i, 1 <= i <= vnp s -> 0 <= pxp (aget (vpt s) i) <= vxmax s) ->
  0 <= ne < alen tet -> (forall k, 1 <= k <= ne -> eokf tet k = true) ->
  (forall k i, 1 <= k <= ne -> 0 <= i < 4 -> 1 <= tv (aget tet k) i <= vnp s /\ okf (vpt s) (tv (aget tet k) i) = true) ->
  let P := vplan (vpt s) l in
  exists s' tet', pack_points s ne tet = Ret (s', tet', corners (vpt s) P) /\ vnp s' = plen P /\ vnil s' = (if vmax s - 1 <=? plen P then 0 else plen P + 1) /\
    vmax s' = vmax s /\ vxp s' = vxp s /\ vxmax s' = vxmax s /\ alen (vpt s') = alen (vpt s) /\ alen tet' = alen tet /\
    (forall j, 1 <= j <= plen P -> aget (vpt s') j = set_tmp (mark1 (aget (vpt s) (src P j)) j) 0) /\
    (forall k, ~ 1 <= k <= ne -> aget tet' k = aget tet k) /\
    (forall k, 1 <= k <= ne -> let t := aget tet k in let t' := aget tet' k in
       (forall i, 0 <= i < 4 -> 1 <= tv t' i <= plen P /\ src P (tv t' i) = tv t i) /\ tref t' = tref t /\ txt t' = txt t /\ tmark t' = tmark t /\ tq t' = tq t) /\
    (forall i, plen P < i < vmax s - 1 -> ptmp (aget (vpt s') i) = i + 1) /\
    (forall i, plen P < i <= vnp s -> vok (aget (vpt s') i) = false) /\
    (forall i, plen P < i -> vnp s < i -> vok (aget (vpt s') i) = vok (aget (vpt s) i)) /\
    (forall i, plen P < i -> vnp s < i -> vmax s - 1 <= i -> aget (vpt s') i = aget (vpt s) i) /\
    (forall i, plen P < i -> pxp (aget (vpt s') i) = pxp (aget (vpt s) i) \/ pxp (aget (vpt s') i) = 0).
Proof.
  intros Hn Hlen Hl Ol Hgap Hxp Hne Hok Hv P. unfold pack_points.
  destruct (mark_ok (vnp s) (vpt s) l ltac:(lia) Hl Ol Hgap) as [a [E [La [M1 [M2 M3]]]]]. fold P in E, M1, M2. rewrite E. cbn [bind].
  assert (HP : forall i, In i P <-> 1 <= i <= l /\ okf (vpt s) i = true).
  { intros i. unfold P, vplan. apply plan_in; [lia|right; exact Ol]. }
  assert (Oka : forall i, okf a i = okf (vpt s) i).
  { intros i. unfold okf. destruct (in_dec Z.eq_dec i P) as [Hin|Hni].
    - destruct (src_of P i Hin) as [j [Hj Ej]]. unfold src in Ej. rewrite <- Ej. rewrite M1 by lia. rewrite Ej.
      pose proof (proj2 (proj1 (HP i) Hin)) as Q. unfold okf in Q. rewrite Q. apply vok_mark1. exact Q.
    - destruct (Z_le_gt_dec 1 i); [destruct (Z_le_gt_dec i (vnp s))|].
      + rewrite M2 by auto. reflexivity.
      + rewrite M3 by lia. reflexivity.
      + rewrite M3 by lia. reflexivity. }
  destruct (update_ok a ne tet Hne Hok) as [tet' [Et [Lt [T1 T2]]]].
  { intros k i Hk Hi. destruct (Hv k i Hk Hi). lia. }
  rewrite Et. cbn [bind].
  set (s1 := mkV (vnp s) (vnil s) (vmax s) a (vxp s) (vxmax s)).
  assert (EP : vplan a l = P). { unfold P, vplan. apply plan_pred_ext. exact Oka. }
  assert (Hxp1 : forall i, 1 <= i <= vnp s -> 0 <= pxp (aget a i) <= vxmax s).
  { intros i Hi. destruct (in_dec Z.eq_dec i P) as [Hin|Hni].
    - destruct (src_of P i Hin) as [j [Hj Ej]]. unfold src in Ej. rewrite <- Ej. rewrite M1 by lia. rewrite Ej. apply Hxp. exact Hi.
    - rewrite M2 by auto. apply Hxp. exact Hi. }
  destruct (pack_pointArray_ok s1 l) as [s' [Ep [Q1 [Q2 [Q3 [Q4 [Q5 [Q6 [Q7 [Q8 [Q9 [Q10 [Q11 Q12]]]]]]]]]]]]].
  - exact Hn.
  - change (alen a = vmax s + 1). lia.
  - exact Hl.
  - change (okf a l = true). rewrite Oka. exact Ol.
  - intros j Hj. change (okf a j = false). rewrite Oka. apply Hgap. exact Hj.
  - exact Hxp1.
  - change (vpt s1) with a in *. change (vmax s1) with (vmax s) in *. change (vnp s1) with (vnp s) in *. change (vxp s1) with (vxp s) in *. change (vxmax s1) with (vxmax s) in *.
    rewrite EP in *. rewrite Ep. cbn [bind]. exists s', tet'. split; [reflexivity|].
    split; [exact Q1|]. split; [exact Q2|]. split; [exact Q3|]. split; [exact Q4|]. split; [exact Q5|]. split; [lia|]. split; [exact Lt|].
    split; [|split; [exact T1|split; [|split; [exact Q8|split; [exact Q9|split; [|split]]]]]].
    + intros j Hj. replace j with (1 + (j - 1)) at 1 by lia. rewrite Q7 by lia. rewrite M1 by lia.
      unfold src. replace (1 + (j - 1)) with j by lia. reflexivity.
    + intros k Hk. destruct (T2 k Hk) as [U1 U2]. cbv zeta. split; [|exact U2]. intros i Hi. rewrite U1 by exact Hi.
      destruct (Hv k i Hk Hi) as [V1 V2].
      assert (Hin : In (tv (aget tet k) i) P).
      { apply HP. split; [|exact V2]. destruct (Z_le_gt_dec (tv (aget tet k) i) l); [lia|]. rewrite Hgap in V2 by lia. discriminate. }
      destruct (src_of P _ Hin) as [j [Hj Ej]]. rewrite <- Ej.
      assert (Et1 : ptmp (aget a (src P j)) = j) by (unfold src; rewrite M1 by lia; cbn [mark1 ptmp]; lia).
      rewrite Et1. split; [exact Hj|reflexivity].
    + intros i Hi1 Hi2. rewrite Q10 by assumption. apply (Oka i).
    + intros i Hi1 Hi2 Hi3. rewrite Q11 by assumption. apply M3. lia.
    + intros i Hi. destruct (Q12 i Hi) as [Q|Q]; [|right; exact Q]. left. rewrite Q.
      destruct (in_dec Z.eq_dec i P) as [Hin|Hni].
      * destruct (src_of P i Hin) as [j [Hj Ej]]. unfold src in Ej. rewrite <- Ej. rewrite M1 by lia. reflexivity.
      * destruct (Z_le_gt_dec 1 i); [destruct (Z_le_gt_dec i (vnp s))|].
        -- rewrite M2 by auto. reflexivity.
        -- rewrite M3 by lia. reflexivity.
        -- rewrite M3 by lia. reflexivity.
Qed.

(** ** Tetrahedra *)
Definition eplan (e : epool) : list Z := plan (eokf (etet e)) (Z.to_nat (ene e)) 1 (ene e).

Lemma pack_tetra_ok e :
  0 <= ene e <= emax e -> alen (etet e) = emax e + 1 -> (1 <= ene e -> eokf (etet e) (ene e) = true) ->
  adj_pre (eokf (etet e)) (ene e) (emax e) (eadj e) ->
  let P := eplan e in
  exists e' ren, pack_tetra e = Ret (1, e') /\ ene e' = plen P /\ emax e' = emax e /\ alen (etet e') = alen (etet e) /\
    (forall j, 1 <= j <= plen P -> aget (etet e') j = aget (etet e) (src P j)) /\
    (forall j, 1 <= j <= plen P -> ren (src P j) = j) /\
    adj_rel (eokf (etet e)) (ene e) ren (eadj e) (eadj e').
Proof.
  intros Hn Hlen Hlast Hadj P. unfold pack_tetra. destruct (Z.eqb_spec (ene e) 0) as [E0|N0].
  - exists e, (fun i => i). assert (EP : P = []) by (unfold P, eplan; rewrite E0; reflexivity). rewrite EP.
    split; [reflexivity|]. split; [exact E0|]. split; [reflexivity|]. split; [reflexivity|]. split; [cbn; lia|]. split; [cbn; lia|].
    unfold adj_rel. destruct (eadj e); [|exact Logic.I]. split; [reflexivity|]. intros a0 i Ha. lia.
  - destruct (tet_loop_ok (S (Z.to_nat (ene e))) e 1) as [e1 [ren [E [Q1 [Q2 [Q3 [Q4 [Q5 [Q6 [Q7 [Q8 [Q9 Q10]]]]]]]]]]]]; [lia|lia|lia|lia|apply Hlast; lia|intros; lia|exact Hadj|].
    replace (Z.to_nat (ene e - 1 + 1)) with (Z.to_nat (ene e)) in * by lia. fold (eplan e) in *. fold P in Q1, Q4, Q9.
    rewrite E. cbn [bind]. replace (1 =? 0) with false by reflexivity. rewrite Q2.
    assert (HlP : 0 <= plen P <= ene e).
    { split; [unfold plen; lia|]. pose proof (plan_len (eokf (etet e)) (Z.to_nat (ene e)) 1 (ene e) ltac:(lia) (or_intror (Hlast ltac:(lia)))). fold (eplan e) in H. fold P in H. lia. }
    assert (Hsrc : forall j, 1 <= j <= plen P -> aget (etet e1) j = aget (etet e) (src P j)).
    { intros j Hj. replace j with (1 + (j - 1)) at 1 by lia. rewrite Q4 by lia. reflexivity. }
    assert (Hren : forall j, 1 <= j <= plen P -> ren (src P j) = j).
    { intros j Hj. unfold src. rewrite Q9 by lia. lia. }
    set (nil := if emax e - 1 <=? ene e1 then 0 else ene e1 + 1).
    assert (Hnil : nil = 0 \/ nil = ene e1 + 1 /\ nil <= emax e - 1).
    { unfold nil. destruct (Z.leb_spec (emax e - 1) (ene e1)); [left; reflexivity|right; lia]. }
    assert (Fin : exists a, (if nil =? 0 then Ret (etet e1)
            else match eadj e1 with
                 | Some _ => link_tets nil (emax e - 1) (etet e1)
                 | None => for_range nil (emax e - 2)
                             (fun k a => t <- rd a k ;; wr a k (mkT 0 (v1 t) (v2 t) (v3 t) (tref t) (txt t) (tmark t) (tq t))) (etet e1)
                 end) = Ret a /\ alen a = alen (etet e1) /\ forall i, i <= ene e1 -> aget a i = aget (etet e1) i).
    { destruct (Z.eqb_spec nil 0) as [Z0|NZ]; [exists (etet e1); auto|]. destruct Hnil as [|[Hn1 Hn2]]; [contradiction|].
      assert (Gen : forall (g : Z -> tetra -> tetra), exists a, for_range nil (emax e - 2) (fun k a => t <- rd a k ;; wr a k (g k t)) (etet e1) = Ret a /\
          alen a = alen (etet e1) /\ forall i, i <= ene e1 -> aget a i = aget (etet e1) i).
      { intros g. destruct (@for_range_inv (arr tetra) (fun k b => alen b = alen (etet e1) /\ forall i, i <= ene e1 -> aget b i = aget (etet e1) i)
           (fun k a => t <- rd a k ;; wr a k (g k t)) nil (emax e - 2) (etet e1)) as [b [Eb [Lb Ib]]].
        - lia.
        - auto.
        - intros k b Hk [Lb Ib]. rewrite rd_ok by lia. cbn [bind]. rewrite wr_ok by lia. eexists. split; [reflexivity|]. split; [exact Lb|].
          intros i Hi. cbn [aget]. rewrite upd_other by lia. apply Ib. exact Hi.
        - exists b. auto. }
      destruct (eadj e1).
      - unfold link_tets. replace (emax e - 1 - 1) with (emax e - 2) by lia. apply (Gen (fun k t => set_v3 t (k + 1))).
      - apply (Gen (fun k t => mkT 0 (v1 t) (v2 t) (v3 t) (tref t) (txt t) (tmark t) (tq t))). }
    destruct Fin as [a [Ea [La Ia]]]. rewrite Ea. cbn [bind].
    eexists. exists ren. split; [reflexivity|]. cbn [ene emax etet eadj].
    split; [lia|]. split; [reflexivity|]. split; [lia|]. split; [|split; [exact Hren|exact Q10]].
    intros j Hj. rewrite Ia by lia. apply Hsrc. exact Hj.
Qed.
