(** Packing of the vertices and of the solution. *)
From Coq Require Import ZArith List Lia Bool.
From Verif Require Import CBase Chain MeshModel PoolModel PackModel PackPlan PoolProofs.
Import ListNotations.
Open Scope Z_scope.

Definition okf (a : arr point) (i : Z) : bool := vok (aget a i).

Lemma ldiff_le a b : 0 <= b -> Z.ldiff a b <= a.
Proof.
  intros Hb.
  assert (E : a - Z.land a b = Z.ldiff a (Z.land a b)).
  { apply Z.sub_nocarry_ldiff. apply Z.bits_inj'. intros n Hn. rewrite Z.ldiff_spec, Z.land_spec, Z.bits_0. destruct (Z.testbit a n); cbn; [apply andb_false_r | reflexivity]. }
  assert (E2 : Z.ldiff a b = Z.ldiff a (Z.land a b)).
  { apply Z.bits_inj'. intros n Hn. rewrite !Z.ldiff_spec, Z.land_spec. destruct (Z.testbit a n), (Z.testbit b n); reflexivity. }
  assert (0 <= Z.land a b) by (apply Z.land_nonneg; right; exact Hb). lia.
Qed.

Lemma unsurf_le tag : unsurf tag <= tag.
Proof.
  unfold unsurf. destruct (_ =? _); [lia|].
  pose proof (ldiff_le tag MG_NOSURF ltac:(unfold MG_NOSURF; lia)).
  pose proof (ldiff_le (Z.ldiff tag MG_NOSURF) MG_REQ ltac:(unfold MG_REQ; lia)). lia.
Qed.

Lemma vok_mark1 p k : vok p = true -> vok (mark1 p k) = true.
Proof. unfold vok, mark1. cbn [ptag]. rewrite !Z.ltb_lt. pose proof (unsurf_le (ptag p)). lia. Qed.

Lemma last_used_ok a : forall fuel k np, 0 <= k <= np -> np < alen a -> (Z.to_nat (np - k) < fuel)%nat ->
  last_used fuel a k np = Ret (down (okf a) (Z.to_nat (np - k)) k np).
Proof.
  induction fuel as [|f IH]; intros k np Hk Hl Hf; [lia|]. cbn [last_used]. rewrite rd_ok by lia. cbn [bind].
  destruct (Z.ltb_spec k np) as [Hlt|Hge].
  - replace (Z.to_nat (np - k)) with (S (Z.to_nat (np - 1 - k))) by lia. cbn [down].
    destruct (Z.leb_spec np k); [lia|]. unfold okf at 1. destruct (vok (aget a np)); cbn [negb andb]; [reflexivity|].
    apply IH; lia.
  - rewrite andb_false_r. assert (np = k) as -> by lia. replace (Z.to_nat (k - k)) with 0%nat by lia. reflexivity.
Qed.

Definition corner (p : point) : bool := negb (Z.land (unsurf (ptag p)) MG_CRN =? 0).
Definition corners (a : arr point) (P : list Z) : Z := plen (filter (fun s => corner (aget a s)) P).

Lemma nth_cons_Z (x : Z) r j : 0 < j -> nth (Z.to_nat j) (x :: r) 0 = nth (Z.to_nat (j - 1)) r 0.
Proof. intros H. replace (Z.to_nat j) with (S (Z.to_nat (j - 1))) by lia. reflexivity. Qed.

Lemma plen_cons x r : plen (x :: r) = plen r + 1.
Proof. unfold plen. cbn [length]. lia. Qed.

Lemma filter_ext_in {A} (f g : A -> bool) l : (forall x, In x l -> f x = g x) -> filter f l = filter g l.
Proof. induction l as [|x l IH]; intros H; cbn; [reflexivity|]. rewrite (H x) by (left; reflexivity). rewrite IH by (intros; apply H; right; assumption). reflexivity. Qed.

Section Mark.
Variable ok : Z -> bool.

Lemma mark_loop_ok : forall fuel a k np nc l,
  1 <= k < np -> np <= alen a -> (Z.to_nat (np - k) <= fuel)%nat ->
  k - 1 <= l < np -> live_end ok k l -> (forall j, l < j < np -> ok j = false) ->
  (forall j, k <= j < np -> vok (aget a j) = ok j) ->
  let P := plan ok (Z.to_nat (l - k + 1)) k l in
  exists a', mark_loop fuel a k np nc = Ret (a', k + plen P, k + plen P, nc + corners a P) /\ alen a' = alen a /\
    (forall j, 0 <= j < plen P -> aget a' (nth (Z.to_nat j) P 0) = mark1 (aget a (nth (Z.to_nat j) P 0)) (k + j)) /\
    (forall i, ~ In i P -> aget a' i = aget a i).
Proof.
  induction fuel as [|f IH]; intros a k np nc l Hk Hnp Hf Hl He Hgap Hok P; [lia|].
  cbn [mark_loop]. rewrite rd_ok by lia. cbn [bind]. rewrite (Hok k) by lia.
  assert (Extend : forall q np' l', (q = k \/ q = l) -> ok q = true -> k < np' <= np -> k <= q -> (q = k \/ q = np') ->
     k <= l' < np' -> live_end ok (k + 1) l' -> (forall j, l' < j < np' -> ok j = false) ->
     P = q :: plan ok (Z.to_nat (l' - (k + 1) + 1)) (k + 1) l' ->
     exists a',
      (p' <- rd a q ;; _ <- c_assert (vok p' || (k =? np')) ;; _ <- c_assert (negb (k =? np') || negb (vok p')) ;;
       if k =? np' then Ret (a, k, np', nc) else
        a'' <- wr a q (mark1 p' k) ;;
        let nc' := if Z.land (unsurf (ptag p')) MG_CRN =? 0 then nc else nc + 1 in
        if k + 1 <? np' then mark_loop f a'' (k + 1) np' nc' else Ret (a'', k + 1, np', nc'))
      = Ret (a', k + plen P, k + plen P, nc + corners a P) /\ alen a' = alen a /\
      (forall j, 0 <= j < plen P -> aget a' (nth (Z.to_nat j) P 0) = mark1 (aget a (nth (Z.to_nat j) P 0)) (k + j)) /\
      (forall i, ~ In i P -> aget a' i = aget a i)).
  { intros q np' l' Hq Hoq Hnp' Hkq Hq2 Hl' He' Hgap' EP.
    assert (Hql : q < np) by lia.
    rewrite rd_ok by lia. cbn [bind]. rewrite (Hok q) by lia. rewrite Hoq. cbn [orb c_assert bind].
    destruct (Z.eqb_spec k np'); [lia|]. cbn [negb orb c_assert bind]. rewrite wr_ok by lia. cbn [bind].
    set (a1 := mkArr (alen a) (upd (aget a) q (mark1 (aget a q) k))).
    set (nc1 := if Z.land (unsurf (ptag (aget a q))) MG_CRN =? 0 then nc else nc + 1).
    set (P1 := plan ok (Z.to_nat (l' - (k + 1) + 1)) (k + 1) l') in *.
    assert (Hin : forall s, In s P1 <-> k + 1 <= s <= l' /\ ok s = true) by (apply plan_in; [lia|exact He']).
    assert (HqP : ~ In q P1). { rewrite Hin. destruct Hq2 as [->| ->]; lia. }
    assert (Hne : forall s, In s P1 -> s <> q) by (intros s Hs ->; contradiction).
    assert (Hc : corners a P = corners a [q] + corners a P1).
    { rewrite EP. unfold corners. cbn [filter]. destruct (corner (aget a q)); unfold plen; cbn [length]; lia. }
    assert (Hc1 : nc1 = nc + corners a [q]).
    { unfold nc1, corners. cbn [filter]. unfold corner. destruct (_ =? _); unfold plen; cbn [length negb]; lia. }
    assert (Hc2 : corners a1 P1 = corners a P1).
    { unfold corners. f_equal. apply filter_ext_in. intros s Hs. unfold a1. cbn [aget]. rewrite upd_other by (apply Hne; exact Hs). reflexivity. }
    assert (R : exists a', (if k + 1 <? np' then mark_loop f a1 (k + 1) np' nc1 else Ret (a1, k + 1, np', nc1))
       = Ret (a', k + 1 + plen P1, k + 1 + plen P1, nc1 + corners a1 P1) /\ alen a' = alen a1 /\
       (forall j, 0 <= j < plen P1 -> aget a' (nth (Z.to_nat j) P1 0) = mark1 (aget a1 (nth (Z.to_nat j) P1 0)) (k + 1 + j)) /\
       (forall i, ~ In i P1 -> aget a' i = aget a1 i)).
    { destruct (Z.ltb_spec (k + 1) np').
      - apply IH; [lia|unfold a1; cbn [alen]; lia|lia|lia|exact He'|exact Hgap'|].
        intros j Hj. unfold a1. cbn [aget]. unfold upd. destruct (Z.eqb_spec j q) as [->|].
        + rewrite Hoq. apply vok_mark1. rewrite Hok by lia. exact Hoq.
        + apply Hok. lia.
      - assert (np' = k + 1) as -> by lia.
        assert (EP1 : P1 = []). { unfold P1. replace (Z.to_nat (l' - (k + 1) + 1)) with 0%nat by lia. reflexivity. }
        exists a1. rewrite EP1. cbn [plen length]. split; [f_equal; f_equal; [f_equal; [f_equal|]|]; unfold corners, plen; cbn; lia|].
        split; [reflexivity|]. split; [unfold plen; cbn; lia | reflexivity]. }
    destruct R as [a' [E [L [V O]]]]. exists a'. rewrite E, EP, plen_cons. rewrite EP in Hc.
    split; [f_equal; f_equal; [f_equal; [f_equal; lia | lia] | lia]|]. split; [exact L|]. split.
    - intros j Hj. destruct (Z.eq_dec j 0) as [->|].
      + cbn [Z.to_nat nth]. rewrite O by exact HqP. unfold a1. cbn [aget]. rewrite upd_same. f_equal. lia.
      + rewrite nth_cons_Z by lia. rewrite V by lia. unfold a1. cbn [aget].
        rewrite upd_other; [f_equal; lia|]. apply Hne. apply nth_In. unfold plen in Hj. lia.
    - intros i Hi. rewrite O by (intros Hi2; apply Hi; right; exact Hi2). unfold a1. cbn [aget]. apply upd_other.
      intros ->. apply Hi. left. reflexivity. }
  destruct (ok k) eqn:Ek.
  - assert (Hkl : k <= l). { destruct (Z_le_gt_dec k l); [assumption|]. rewrite Hgap in Ek by lia. discriminate. }
    cbn [bind]. apply (Extend k np l); auto; try lia.
    + destruct He as [He|He]; [lia | right; exact He].
    + unfold P. replace (Z.to_nat (l - k + 1)) with (S (Z.to_nat (l - (k + 1) + 1))) by lia. cbn [plan].
      destruct (Z.ltb_spec l k); [lia|]. rewrite Ek. reflexivity.
  - rewrite last_used_ok by lia. cbn [bind].
    assert (Edown : down (okf a) (Z.to_nat (np - 1 - k)) k (np - 1) = down ok (Z.to_nat (np - 1 - k)) k (np - 1)).
    { apply down_ext. intros j Hj. apply Hok. lia. }
    rewrite Edown. destruct (Z_le_gt_dec k l) as [Hkl|Hlk].
    + destruct He as [He|He]; [lia|]. assert (k <> l) by (intros ->; congruence).
      rewrite (down_unique ok _ k (np - 1) l); [|lia|lia|right; exact He|intros; apply Hgap; lia].
      destruct (down_spec ok (Z.to_nat (l - k)) k (l - 1)) as [A [B C]]; [lia|lia|].
      set (d := down ok (Z.to_nat (l - k)) k (l - 1)) in *.
      assert (Hd : live_end ok (k + 1) d) by (destruct B as [B|B]; [left; lia | right; exact B]).
      apply (Extend l l d); auto; try lia.
      * intros j Hj. apply C. lia.
      * unfold P. replace (Z.to_nat (l - k + 1)) with (S (Z.to_nat (l - k))) by lia. cbn [plan].
        destruct (Z.ltb_spec l k); [lia|]. rewrite Ek. fold d. f_equal. apply plan_fuel; [lia|lia|exact Hd].
    + rewrite (down_unique ok _ k (np - 1) k); [|lia|lia|left; reflexivity|intros; apply Hgap; lia].
      assert (EP : P = []) by (unfold P; replace (Z.to_nat (l - k + 1)) with 0%nat by lia; reflexivity).
      rewrite rd_ok by lia. cbn [bind]. rewrite (Hok k) by lia. rewrite Ek, Z.eqb_refl. cbn [orb c_assert bind negb].
      exists a. rewrite EP. split; [f_equal; f_equal; [f_equal; [f_equal|]|]; unfold corners, plen; cbn; lia|].
      split; [reflexivity|]. split; [unfold plen; cbn; lia | reflexivity].
Qed.

End Mark.

(** ** Solution *)

Lemma copy_sol_ok size m k np :
  0 < size -> 0 <= k < np -> (np + 1) * size <= alen m ->
  exists m', copy_sol size m k np = Ret m' /\ alen m' = alen m /\
    (forall i, 0 <= i < size -> aget m' (k * size + i) = aget m (np * size + i)) /\
    (forall x, x < k * size \/ (k + 1) * size <= x -> aget m' x = aget m x).
Proof.
  intros Hs Hk Hm. unfold copy_sol.
  assert (Hg : (k + 1) * size <= np * size) by (apply Z.mul_le_mono_nonneg_r; lia).
  assert (H0 : 0 <= k * size) by (apply Z.mul_nonneg_nonneg; lia).
  destruct (@for_range_inv (arr Z) (fun i m1 => alen m1 = alen m /\
     forall x, aget m1 x = if (k * size <=? x) && (x <? k * size + i) then aget m (np * size + (x - k * size)) else aget m x)
     (fun i m => x <- rd m (np * size + i) ;; wr m (k * size + i) x) 0 (size - 1) m) as [m' [E [L V]]].
  - lia.
  - split; [reflexivity|]. intros x. destruct (Z.leb_spec (k * size) x), (Z.ltb_spec x (k * size + 0)); reflexivity || lia.
  - intros i m1 Hi [L V]. rewrite rd_ok by lia. cbn [bind]. rewrite wr_ok by lia. eexists. split; [reflexivity|].
    cbn [alen aget]. split; [exact L|]. intros x. unfold upd. rewrite !V.
    destruct (Z.eqb_spec x (k * size + i)) as [->|].
    + destruct (Z.leb_spec (k * size) (np * size + i)), (Z.ltb_spec (np * size + i) (k * size + i)); try lia. cbn [andb].
      destruct (Z.leb_spec (k * size) (k * size + i)), (Z.ltb_spec (k * size + i) (k * size + (i + 1))); try lia. cbn [andb]. f_equal. lia.
    + destruct (Z.leb_spec (k * size) x), (Z.ltb_spec x (k * size + i)), (Z.ltb_spec x (k * size + (i + 1))); try lia; reflexivity.
  - exists m'. split; [exact E|]. split; [exact L|]. split.
    + intros i Hi. rewrite V. destruct (Z.leb_spec (k * size) (k * size + i)), (Z.ltb_spec (k * size + i) (k * size + (size - 1 + 1))); try lia.
      cbn [andb]. f_equal. lia.
    + intros x Hx. rewrite V. destruct (Z.leb_spec (k * size) x), (Z.ltb_spec x (k * size + (size - 1 + 1))); try lia; reflexivity.
Qed.

Lemma plan_one ok f k : ok k = true -> plan ok (S f) k k = [k].
Proof.
  intros E. cbn [plan]. destruct (Z.ltb_spec k k); [lia|]. rewrite E. f_equal.
  destruct f; [reflexivity|]. cbn [plan]. destruct (Z.ltb_spec k (k + 1)); [reflexivity|lia].
Qed.

Lemma sol_loop_ok pts size : 0 < size -> forall fuel m k np,
  1 <= k <= np -> np < alen pts -> (Z.to_nat (np - k) < fuel)%nat -> okf pts np = true -> (np + 1) * size <= alen m ->
  let P := plan (okf pts) (Z.to_nat (np - k + 1)) k np in
  exists m', sol_loop fuel pts size m k np = Ret (m', k - 1 + plen P) /\ alen m' = alen m /\
    (forall j i, 0 <= j < plen P -> 0 <= i < size -> aget m' ((k + j) * size + i) = aget m (nth (Z.to_nat j) P 0 * size + i)) /\
    (forall x, x < k * size -> aget m' x = aget m x).
Proof.
  intros Hs. induction fuel as [|f IH]; intros m k np Hk Hl Hf Hok Hm P; [lia|].
  cbn [sol_loop]. rewrite rd_ok by lia. cbn [bind].
  (* continuation after slot k received the values of q *)
  assert (Extend : forall q m1 np', alen m1 = alen m -> k <= q -> k <= np' <= np -> (np' = k \/ okf pts np' = true) ->
     (forall i, 0 <= i < size -> aget m1 (k * size + i) = aget m (q * size + i)) ->
     (forall x, x < k * size \/ (k + 1) * size <= x -> aget m1 x = aget m x) ->
     P = q :: plan (okf pts) (Z.to_nat (np' - (k + 1) + 1)) (k + 1) np' ->
     exists m', (if k + 1 <? np' then sol_loop f pts size m1 (k + 1) np' else Ret (m1, np')) = Ret (m', k - 1 + plen P) /\ alen m' = alen m /\
      (forall j i, 0 <= j < plen P -> 0 <= i < size -> aget m' ((k + j) * size + i) = aget m (nth (Z.to_nat j) P 0 * size + i)) /\
      (forall x, x < k * size -> aget m' x = aget m x)).
  { intros q m1 np' L1 Hq Hnp' Hend Hcp Hoth EP.
    set (P1 := plan (okf pts) (Z.to_nat (np' - (k + 1) + 1)) (k + 1) np') in *.
    assert (Hm' : (np' + 1) * size <= alen m1).
    { rewrite L1. assert ((np' + 1) * size <= (np + 1) * size) by (apply Z.mul_le_mono_nonneg_r; lia). lia. }
    assert (R : exists m', (if k + 1 <? np' then sol_loop f pts size m1 (k + 1) np' else Ret (m1, np')) = Ret (m', k + plen P1) /\ alen m' = alen m1 /\
      (forall j i, 0 <= j < plen P1 -> 0 <= i < size -> aget m' ((k + 1 + j) * size + i) = aget m1 (nth (Z.to_nat j) P1 0 * size + i)) /\
      (forall x, x < (k + 1) * size -> aget m' x = aget m1 x)).
    { destruct (Z.ltb_spec (k + 1) np').
      - destruct Hend as [Hend|Hend]; [lia|].
        destruct (IH m1 (k + 1) np' ltac:(lia) ltac:(lia) ltac:(lia) Hend Hm') as [m' [E [L [V O]]]].
        exists m'. split; [rewrite E; replace (k + 1 - 1) with k by lia; reflexivity|]. split; [exact L|]. split; assumption.
      - exists m1. destruct Hend as [Hend|Hend].
        + assert (EP1 : P1 = []) by (unfold P1; replace (Z.to_nat (np' - (k + 1) + 1)) with 0%nat by lia; reflexivity).
          rewrite EP1. unfold plen. cbn [length]. split; [f_equal; f_equal; lia|]. split; [reflexivity|]. split; [intros; lia | reflexivity].
        + destruct (Z.eq_dec np' k) as [E1|N1].
          * assert (EP1 : P1 = []) by (unfold P1; replace (Z.to_nat (np' - (k + 1) + 1)) with 0%nat by lia; reflexivity).
            rewrite EP1. unfold plen. cbn [length]. split; [f_equal; f_equal; lia|]. split; [reflexivity|]. split; [intros; lia | reflexivity].
          * assert (np' = k + 1) as E1 by lia. rewrite E1 in *.
            assert (EP1 : P1 = [k + 1]). { unfold P1. rewrite E1. replace (Z.to_nat (k + 1 - (k + 1) + 1)) with 1%nat by lia. apply plan_one. exact Hend. }
            rewrite EP1. unfold plen. cbn [length]. split; [f_equal; f_equal; lia|]. split; [reflexivity|]. split; [|reflexivity].
            intros j i Hj Hi. assert (j = 0) as -> by lia. cbn [Z.to_nat nth]. f_equal. lia. }
    destruct R as [m' [E [L [V O]]]]. exists m'. rewrite E, EP, plen_cons. split; [f_equal; f_equal; lia|]. split; [lia|].
    assert (HP1 : forall s, In s P1 -> k + 1 <= s).
    { intros s Hs1. unfold P1 in Hs1. apply plan_in in Hs1; [lia|lia|].
      destruct Hend as [Hend|Hend]; [left; lia | right; exact Hend]. }
    split.
    - intros j i Hj Hi. destruct (Z.eq_dec j 0) as [->|].
      + cbn [Z.to_nat nth]. replace (k + 0) with k by lia. rewrite O by lia. apply Hcp. exact Hi.
      + rewrite nth_cons_Z by lia. replace (k + j) with (k + 1 + (j - 1)) by lia. rewrite V by lia. apply Hoth.
        right. assert (Hs2 : k + 1 <= nth (Z.to_nat (j - 1)) P1 0) by (apply HP1; apply nth_In; unfold plen in *; lia).
        assert ((k + 1) * size <= nth (Z.to_nat (j - 1)) P1 0 * size) by (apply Z.mul_le_mono_nonneg_r; lia). lia.
    - intros x Hx. rewrite O by lia. apply Hoth. left. exact Hx. }
  destruct (okf pts k) eqn:Ek; unfold okf in Ek; rewrite Ek.
  - cbn [bind]. apply (Extend k m np); auto; try lia.
    unfold P. replace (Z.to_nat (np - k + 1)) with (S (Z.to_nat (np - (k + 1) + 1))) by lia. cbn [plan].
    destruct (Z.ltb_spec np k); [lia|]. unfold okf at 1. rewrite Ek. reflexivity.
  - assert (k <> np) by (intros ->; unfold okf in Hok; congruence).
    rewrite rd_ok by lia. cbn [bind]. unfold okf in Hok. rewrite Hok. cbn [c_assert bind].
    destruct (copy_sol_ok size m k np) as [m1 [E1 [L1 [C1 O1]]]]; [lia|lia|lia|]. rewrite E1. cbn [bind].
    rewrite last_used_ok by lia. cbn [bind].
    destruct (down_spec (okf pts) (Z.to_nat (np - 1 - k)) k (np - 1)) as [A [B C]]; [lia|lia|].
    apply (Extend np m1 (down (okf pts) (Z.to_nat (np - 1 - k)) k (np - 1))); auto; try lia.
    unfold P. replace (Z.to_nat (np - k + 1)) with (S (Z.to_nat (np - k))) by lia. cbn [plan].
    destruct (Z.ltb_spec np k); [lia|]. unfold okf at 1. rewrite Ek.
    rewrite (down_unique (okf pts) (Z.to_nat (np - k)) k (np - 1) (down (okf pts) (Z.to_nat (np - 1 - k)) k (np - 1))); [|lia|lia|exact B|exact C].
    f_equal. apply plan_fuel; [lia|lia|]. destruct B as [B|B]; [left; lia | right; exact B].
Qed.

(** ** Vertices *)

Definition dead : point := mkP 0 0 0 0 0 MG_NUL.

Lemma pts_loop_ok : forall fuel a k np,
  1 <= k <= np -> np < alen a -> (Z.to_nat (np - k) < fuel)%nat -> okf a np = true ->
  let P := plan (okf a) (Z.to_nat (np - k + 1)) k np in
  exists a', pts_loop fuel a k np = Ret (a', k - 1 + plen P) /\ alen a' = alen a /\
    (forall j, 0 <= j < plen P -> aget a' (k + j) = aget a (nth (Z.to_nat j) P 0)) /\
    (forall i, i < k -> aget a' i = aget a i) /\
    (forall i, k - 1 + plen P < i -> aget a' i = aget a i \/ (aget a' i = dead /\ i <= np)) /\
    (forall i, k - 1 + plen P < i <= np -> vok (aget a' i) = false).
Proof.
  induction fuel as [|f IH]; intros a k np Hk Hl Hf Hok P; [lia|].
  cbn [pts_loop]. rewrite rd_ok by lia. cbn [bind].
  assert (Extend : forall q a1 np', alen a1 = alen a -> k <= q -> k <= np' <= np -> (np' = k \/ okf a np' = true) ->
     aget a1 k = aget a q -> (forall i, i < k -> aget a1 i = aget a i) ->
     (forall i, k < i <= np' -> aget a1 i = aget a i) ->
     (forall i, np' < i -> aget a1 i = aget a i \/ (aget a1 i = dead /\ i <= np)) -> (forall i, np' < i <= np -> vok (aget a1 i) = false) ->
     P = q :: plan (okf a) (Z.to_nat (np' - (k + 1) + 1)) (k + 1) np' ->
     exists a', (if k + 1 <? np' then pts_loop f a1 (k + 1) np' else Ret (a1, np')) = Ret (a', k - 1 + plen P) /\ alen a' = alen a /\
      (forall j, 0 <= j < plen P -> aget a' (k + j) = aget a (nth (Z.to_nat j) P 0)) /\
      (forall i, i < k -> aget a' i = aget a i) /\
      (forall i, k - 1 + plen P < i -> aget a' i = aget a i \/ (aget a' i = dead /\ i <= np)) /\
      (forall i, k - 1 + plen P < i <= np -> vok (aget a' i) = false)).
  { intros q a1 np' L1 Hq Hnp' Hend Hcp Hlow Hmid Hhigh Hdead EP.
    assert (Hend2 : live_end (okf a) (k + 1) np') by (destruct Hend as [Hend|Hend]; [left; lia | right; exact Hend]).
    assert (EP2 : plan (okf a1) (Z.to_nat (np' - (k + 1) + 1)) (k + 1) np' = plan (okf a) (Z.to_nat (np' - (k + 1) + 1)) (k + 1) np').
    { symmetry. apply plan_ext; [|lia|exact Hend2]. intros j Hj. unfold okf. rewrite Hmid by lia. reflexivity. }
    set (P1 := plan (okf a) (Z.to_nat (np' - (k + 1) + 1)) (k + 1) np') in *.
    assert (R : exists a', (if k + 1 <? np' then pts_loop f a1 (k + 1) np' else Ret (a1, np')) = Ret (a', k + plen P1) /\ alen a' = alen a1 /\
      (forall j, 0 <= j < plen P1 -> aget a' (k + 1 + j) = aget a1 (nth (Z.to_nat j) P1 0)) /\
      (forall i, i < k + 1 -> aget a' i = aget a1 i) /\
      (forall i, k + plen P1 < i -> aget a' i = aget a1 i \/ (aget a' i = dead /\ i <= np')) /\
      (forall i, k + plen P1 < i <= np' -> vok (aget a' i) = false) /\ k + plen P1 <= np').
    { destruct (Z.ltb_spec (k + 1) np').
      - destruct Hend as [Hend|Hend]; [lia|].
        assert (Hend3 : okf a1 np' = true) by (unfold okf in *; rewrite Hmid by lia; exact Hend).
        destruct (IH a1 (k + 1) np' ltac:(lia) ltac:(lia) ltac:(lia) Hend3) as [a' [E [L [V [O [D N]]]]]].
        rewrite EP2 in *. exists a'.
        split; [rewrite E; replace (k + 1 - 1) with k by lia; reflexivity|]. split; [exact L|]. split; [exact V|]. split; [exact O|].
        split; [intros i Hi; apply D; lia|]. split; [intros i Hi; apply N; lia|].
        pose proof (plan_len (okf a) (Z.to_nat (np' - (k + 1) + 1)) (k + 1) np' ltac:(lia) Hend2). fold P1 in H0. lia.
      - exists a1. destruct (Z.eq_dec np' k) as [E1|N1].
        + assert (EP1 : P1 = []) by (unfold P1; replace (Z.to_nat (np' - (k + 1) + 1)) with 0%nat by lia; reflexivity).
          rewrite EP1. unfold plen. cbn [length]. split; [f_equal; f_equal; lia|]. split; [reflexivity|]. split; [intros; lia|].
          split; [reflexivity|]. split; [auto|]. split; intros; lia.
        + destruct Hend as [Hend|Hend]; [lia|]. assert (np' = k + 1) as E1 by lia. rewrite E1 in *.
          assert (EP1 : P1 = [k + 1]). { unfold P1. rewrite E1. replace (Z.to_nat (k + 1 - (k + 1) + 1)) with 1%nat by lia. apply plan_one. exact Hend. }
          rewrite EP1. unfold plen. cbn [length]. split; [f_equal; f_equal; lia|]. split; [reflexivity|]. split.
          * intros j Hj. assert (j = 0) as -> by lia. cbn [Z.to_nat nth]. f_equal. lia.
          * split; [reflexivity|]. split; [auto|]. split; intros; lia. }
    destruct R as [a' [E [L [V [O [D [N Hle]]]]]]]. exists a'. rewrite E, EP, plen_cons. split; [f_equal; f_equal; lia|]. split; [lia|].
    assert (HP1 : forall s, In s P1 -> k + 1 <= s <= np').
    { intros s Hs1. unfold P1 in Hs1. apply plan_in in Hs1; [lia|lia|exact Hend2]. }
    split; [|split; [|split]].
    - intros j Hj. destruct (Z.eq_dec j 0) as [->|].
      + cbn [Z.to_nat nth]. replace (k + 0) with k by lia. rewrite O by lia. exact Hcp.
      + rewrite nth_cons_Z by lia. replace (k + j) with (k + 1 + (j - 1)) by lia. rewrite V by lia.
        assert (Hs2 : k + 1 <= nth (Z.to_nat (j - 1)) P1 0 <= np') by (apply HP1; apply nth_In; unfold plen in *; lia).
        apply Hmid. lia.
    - intros i Hi. rewrite O by lia. apply Hlow. exact Hi.
    - intros i Hi. destruct (D i ltac:(lia)) as [D1|[D1 D2]]; [|right; split; [exact D1|lia]]. rewrite D1.
      destruct (Z_le_gt_dec i np'); [left; apply Hmid; unfold plen in *; lia | apply Hhigh; lia].
    - intros i Hi. destruct (Z_le_gt_dec i np'); [apply N; lia|].
      destruct (D i ltac:(lia)) as [D1|[D1 _]]; rewrite D1; [apply Hdead; lia | reflexivity]. }
  destruct (okf a k) eqn:Ek; unfold okf in Ek; rewrite Ek.
  - cbn [bind]. apply (Extend k a np); auto; try lia; try (intros; lia).
    unfold P. replace (Z.to_nat (np - k + 1)) with (S (Z.to_nat (np - (k + 1) + 1))) by lia. cbn [plan].
    destruct (Z.ltb_spec np k); [lia|]. unfold okf at 1. rewrite Ek. reflexivity.
  - assert (k <> np) by (intros ->; unfold okf in Hok; congruence).
    rewrite rd_ok by lia. cbn [bind]. unfold okf in Hok. rewrite Hok. cbn [c_assert bind].
    rewrite wr_ok by lia. cbn [bind]. rewrite wr_ok by (cbn [alen]; lia). cbn [bind]. cbn [alen aget].
    set (a2 := mkArr (alen a) _).
    assert (A2k : aget a2 k = aget a np) by (unfold a2; cbn [aget]; rewrite upd_other by lia; apply upd_same).
    assert (A2n : aget a2 np = dead) by (unfold a2; cbn [aget]; apply upd_same).
    assert (A2o : forall i, i <> k -> i <> np -> aget a2 i = aget a i) by (intros i I1 I2; unfold a2; cbn [aget]; rewrite !upd_other; auto).
    destruct (trim_spec _ vok a2 (S (Z.to_nat np)) np) as [m [T1 [T2 [T3 T4]]]]; [unfold a2; cbn [alen]; lia|lia|].
    rewrite T1. cbn [bind].
    assert (Hmk : k <= m). { destruct (Z_le_gt_dec k m); [assumption|]. pose proof (T4 k ltac:(lia)) as T. rewrite A2k in T. congruence. }
    assert (Hmn : m <> np). { intros ->. specialize (T3 ltac:(lia)). rewrite A2n in T3. discriminate. }
    assert (Hmok : m = k \/ okf a m = true). { destruct (Z.eq_dec m k); [left; assumption|right]. unfold okf. rewrite <- A2o by lia. apply T3. lia. }
    assert (Hgap : forall j, m < j <= np - 1 -> okf a j = false). { intros j Hj. unfold okf. rewrite <- A2o by lia. apply T4. lia. }
    apply (Extend np a2 m).
    + reflexivity.
    + lia.
    + lia.
    + exact Hmok.
    + exact A2k.
    + intros i Hi. apply A2o; lia.
    + intros i Hi. apply A2o; lia.
    + intros i Hi. destruct (Z.eq_dec i np) as [->|]; [right; split; [exact A2n|lia] | left; apply A2o; lia].
    + intros i Hi. apply T4. lia.
    + unfold P. replace (Z.to_nat (np - k + 1)) with (S (Z.to_nat (np - k))) by lia. cbn [plan].
      destruct (Z.ltb_spec np k); [lia|]. unfold okf at 1. rewrite Ek.
      rewrite (down_unique (okf a) (Z.to_nat (np - k)) k (np - 1) m); [|lia|lia|exact Hmok|exact Hgap].
      f_equal. apply plan_fuel; [lia|lia|]. destruct Hmok as [B|B]; [left; lia | right; exact B].
Qed.

Lemma del_tail_ok : forall fuel s l,
  1 <= l <= vnp s -> vnp s < alen (vpt s) -> (Z.to_nat (vnp s - l) < fuel)%nat ->
  okf (vpt s) l = true -> (forall i, l < i <= vnp s -> okf (vpt s) i = false) ->
  (forall i, 1 <= i <= vnp s -> 0 <= pxp (aget (vpt s) i) <= vxmax s) ->
  exists s', del_tail fuel s = Ret s' /\ vnp s' = l /\ vmax s' = vmax s /\ vxp s' = vxp s /\ vxmax s' = vxmax s /\ alen (vpt s') = alen (vpt s) /\
    (forall i, i <= l \/ vnp s < i -> aget (vpt s') i = aget (vpt s) i) /\
    (forall i, l < i <= vnp s -> vok (aget (vpt s') i) = false) /\
    (forall i, pxp (aget (vpt s') i) = pxp (aget (vpt s) i) \/ pxp (aget (vpt s') i) = 0).
Proof.
  induction fuel as [|f IH]; intros s l Hl Hlen Hf Hok Hgap Hxp; [lia|].
  cbn [del_tail]. rewrite rd_ok by lia. cbn [bind].
  destruct (Z.eq_dec l (vnp s)) as [E|N].
  - unfold okf in Hok. rewrite <- E, Hok. cbn [negb andb]. exists s. split; [reflexivity|]. split; [auto|]. do 4 (split; [reflexivity|]). split; [reflexivity|]. split; [intros; lia|]. intros i. left. reflexivity.
  - pose proof (Hgap (vnp s) ltac:(lia)) as G. unfold okf in G. rewrite G. cbn [negb].
    destruct (Z.eqb_spec (vnp s) 0); [lia|]. cbn [negb andb].
    unfold delPt. rewrite rd_ok by lia. cbn [bind].
    assert (Hx : (if pxp (aget (vpt s) (vnp s)) =? 0 then Ret tt
       else c_assert ((0 <=? pxp (aget (vpt s) (vnp s))) && (pxp (aget (vpt s) (vnp s)) <=? vxmax s))) = Ret tt).
    { pose proof (Hxp (vnp s) ltac:(lia)) as X. destruct (_ =? _); [reflexivity|].
      destruct (Z.leb_spec 0 (pxp (aget (vpt s) (vnp s)))), (Z.leb_spec (pxp (aget (vpt s) (vnp s))) (vxmax s)); try lia. reflexivity. }
    rewrite Hx. cbn [bind]. rewrite wr_ok by lia. cbn [bind]. rewrite Z.eqb_refl.
    set (a := mkArr _ _).
    assert (An : vok (aget a (vnp s)) = false) by (unfold a; cbn [aget]; rewrite upd_same; reflexivity).
    assert (Ao : forall i, i <> vnp s -> aget a i = aget (vpt s) i) by (intros i Hi; unfold a; cbn [aget]; apply upd_other; exact Hi).
    destruct (trim_spec _ vok a (S (Z.to_nat (vnp s))) (vnp s)) as [m [T1 [T2 [T3 T4]]]]; [unfold a; cbn [alen]; lia|lia|].
    rewrite T1. cbn [bind].
    assert (m = l) as ->.
    { destruct (Z.lt_trichotomy m l) as [H|[H|H]]; [|exact H|].
      - pose proof (T4 l ltac:(lia)) as T. rewrite Ao in T by lia. unfold okf in Hok. congruence.
      - specialize (T3 ltac:(lia)). destruct (Z.eq_dec m (vnp s)) as [->|]; [congruence|].
        rewrite Ao in T3 by lia. pose proof (Hgap m ltac:(lia)) as T. unfold okf in T. congruence. }
    destruct (IH (mkV l (vnp s) (vmax s) a (vxp s) (vxmax s)) l) as [s' [E1 [S1 [S2 [S3 [S4 [S5 [S6 [S7 S8]]]]]]]]];
      cbn [vnp vpt vmax vxmax vxp] in *.
    + lia.
    + unfold a. cbn [alen]. lia.
    + lia.
    + unfold okf in *. rewrite Ao by lia. exact Hok.
    + intros i Hi. lia.
    + intros i Hi. rewrite Ao by lia. apply Hxp. lia.
    + exists s'. split; [exact E1|]. split; [exact S1|]. split; [exact S2|]. split; [exact S3|]. split; [exact S4|].
      split; [rewrite S5; reflexivity|]. split; [|split].
      * intros i Hi. destruct (Z.eq_dec i (vnp s)) as [->|]; [lia|]. rewrite S6 by lia. apply Ao. lia.
      * intros i Hi. rewrite S6 by lia. apply T4. lia.
      * intros i. destruct (S8 i) as [Q|Q]; [|right; exact Q]. rewrite Q. destruct (Z.eq_dec i (vnp s)) as [->|].
        -- right. unfold a. cbn [aget]. rewrite upd_same. reflexivity.
        -- left. rewrite Ao by assumption. reflexivity.
Qed.
