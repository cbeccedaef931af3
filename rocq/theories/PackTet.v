(** Packing of the tetrahedra with their adjacency. *)
From Coq Require Import ZArith List Lia Bool.
From Verif Require Import CBase Chain MeshModel PoolModel PoolSpec PoolTet PackModel PackPlan PackPts.
Import ListNotations.
Open Scope Z_scope.

Definition eokf (a : arr tetra) (i : Z) : bool := eok (aget a i).
Definition ent (adj : arr Z) (k i : Z) : Z := aget adj (4 * (k - 1) + 1 + i).

(** Symmetric adjacency between live elements; an element is not its own neighbour. *)
Definition AdjOK (ok : Z -> bool) (n : Z) (adj : arr Z) : Prop :=
  forall k i, 1 <= k <= n -> ok k = true -> 0 <= i < 4 ->
    ent adj k i = 0 \/
    exists l j, 1 <= l <= n /\ ok l = true /\ l <> k /\ 0 <= j < 4 /\ ent adj k i = 4 * l + j /\ ent adj l j = 4 * k + i.

Lemma dm l j : 0 <= j < 4 -> (4 * l + j) / 4 = l /\ (4 * l + j) mod 4 = j.
Proof.
  intros H. replace (4 * l + j) with (j + l * 4) by lia. rewrite Z.div_add, Z.mod_add by lia.
  rewrite Z.div_small, Z.mod_small by lia. lia.
Qed.

Definition relab (k ne i x : Z) : Z := if (x / 4 =? ne) && (x mod 4 <? i) then 4 * k + x mod 4 else x.

Lemma move_adja_ok ok adj k ne :
  AdjOK ok ne adj -> 1 <= k < ne -> ok k = false -> ok ne = true -> 4 * ne < alen adj ->
  exists adj', move_adja adj k ne = Ret adj' /\ alen adj' = alen adj /\
    (forall i, 0 <= i < 4 -> ent adj' k i = ent adj ne i) /\
    (forall a i, 1 <= a <= ne -> ok a = true -> a <> ne -> 0 <= i < 4 -> ent adj' a i = relab k ne 4 (ent adj a i)).
Proof.
  intros A Hk Nk One Hlen. unfold move_adja.
  assert (Ha : forall a, ok a = true -> a <> k) by (intros a Oa ->; congruence).
  destruct (@for_range_inv (arr Z) (fun i b => alen b = alen adj /\
      (forall j, 0 <= j < i -> ent b k j = ent adj ne j) /\
      (forall j, 0 <= j < 4 -> ent b ne j = ent adj ne j) /\
      (forall a c, 1 <= a <= ne -> ok a = true -> a <> ne -> 0 <= c < 4 -> ent b a c = relab k ne i (ent adj a c)))
    (fun i adj => x <- rd adj (4 * (ne - 1) + 1 + i) ;; adj <- wr adj (4 * (k - 1) + 1 + i) x ;;
       if x =? 0 then Ret adj else wr adj (4 * (x / 4 - 1) + 1 + x mod 4) (4 * k + i)) 0 3 adj) as [adj' [E [L [I1 [I2 I3]]]]].
  - lia.
  - split; [reflexivity|]. split; [intros; lia|]. split; [reflexivity|]. intros a c _ _ _ Hc. unfold relab.
    pose proof (Z.mod_pos_bound (ent adj a c) 4 ltac:(lia)).
    destruct (Z.ltb_spec (ent adj a c mod 4) 0); [lia|]. rewrite andb_false_r. reflexivity.
  - intros i b Hi [L [I1 [I2 I3]]]. rewrite rd_ok by lia. cbn [bind].
    change (aget b (4 * (ne - 1) + 1 + i)) with (ent b ne i). rewrite I2 by lia. set (x := ent adj ne i) in *.
    rewrite wr_ok by lia. cbn [bind].
    set (b1 := mkArr (alen b) (upd (aget b) (4 * (k - 1) + 1 + i) x)).
    assert (B1 : forall a c, 0 <= c < 4 -> (a <> k \/ c <> i) -> ent b1 a c = ent b a c).
    { intros a c Hc Hn. unfold ent, b1. cbn [aget]. apply upd_other. lia. }
    assert (B1k : ent b1 k i = x) by (unfold ent, b1; cbn [aget]; apply upd_same).
    destruct (Z.eqb_spec x 0) as [Ex|Nx].
    + exists b1. split; [reflexivity|]. split; [exact L|]. split; [|split].
      * intros j Hj. destruct (Z.eq_dec j i) as [->|]; [exact B1k|]. rewrite B1 by lia. apply I1. lia.
      * intros j Hj. rewrite B1 by lia. apply I2. exact Hj.
      * intros a c H1 H2 H3 Hc. rewrite B1; [|exact Hc|left; apply Ha; exact H2]. rewrite I3 by auto. unfold relab.
        destruct (Z.eqb_spec (ent adj a c / 4) ne) as [Ed|Nd]; [|reflexivity]. cbn [andb].
        destruct (A a c H1 H2 Hc) as [Z0|[l [j [L1 [L2 [L3 [L4 [L5 L6]]]]]]]].
        { rewrite Z0 in Ed. cbn in Ed. lia. }
        destruct (dm l j L4) as [D1 D2]. rewrite L5, D1 in Ed. subst l. rewrite L5, D2.
        assert (j <> i) by (intros ->; fold x in L6; lia).
        destruct (Z.ltb_spec j i), (Z.ltb_spec j (i + 1)); reflexivity || lia.
    + destruct (A ne i ltac:(lia) One ltac:(lia)) as [Z0|[l [j [L1 [L2 [L3 [L4 [L5 L6]]]]]]]]; [fold x in Z0; lia|].
      fold x in L5. destruct (dm l j L4) as [D1 D2]. rewrite L5, D1, D2.
      pose proof (Ha l L2) as Hlk.
      rewrite wr_ok by (unfold b1; cbn [alen]; lia). eexists. split; [reflexivity|].
      set (b2 := mkArr (alen b1) _).
      assert (B2 : forall a c, 0 <= c < 4 -> (a <> l \/ c <> j) -> ent b2 a c = ent b1 a c).
      { intros a c Hc Hn. unfold ent, b2. cbn [aget]. apply upd_other. lia. }
      assert (B2l : ent b2 l j = 4 * k + i) by (unfold ent, b2; cbn [aget]; apply upd_same).
      split; [exact L|]. split; [|split].
      * intros c Hc. rewrite B2 by lia. destruct (Z.eq_dec c i) as [->|]; [rewrite B1k; exact (eq_sym (eq_refl x))|]. rewrite B1 by lia. apply I1. lia.
      * intros c Hc. rewrite B2 by lia. rewrite B1 by lia. apply I2. exact Hc.
      * intros a c H1 H2 H3 Hc. destruct (Z.eq_dec a l) as [->|Nal]; [destruct (Z.eq_dec c j) as [->|Ncj]|].
        -- rewrite B2l, L6. unfold relab. destruct (dm ne i ltac:(lia)) as [G1 G2]. rewrite G1, G2, Z.eqb_refl. cbn [andb].
           destruct (Z.ltb_spec i (i + 1)); [reflexivity|lia].
        -- rewrite B2 by lia. rewrite B1 by lia. rewrite I3 by auto. unfold relab.
           destruct (Z.eqb_spec (ent adj l c / 4) ne) as [Ed|Nd]; [|reflexivity]. cbn [andb].
           destruct (A l c H1 H2 Hc) as [Z0|[l' [j' [M1 [M2 [M3 [M4 [M5 M6]]]]]]]]; [rewrite Z0 in Ed; cbn in Ed; lia|].
           destruct (dm l' j' M4) as [G1 G2]. rewrite M5, G1 in Ed. subst l'. rewrite M5, G2.
           assert (j' <> i) by (intros ->; fold x in M6; lia).
           destruct (Z.ltb_spec j' i), (Z.ltb_spec j' (i + 1)); reflexivity || lia.
        -- pose proof (Ha a H2). rewrite B2 by lia. rewrite B1 by lia. rewrite I3 by auto. unfold relab.
           destruct (Z.eqb_spec (ent adj a c / 4) ne) as [Ed|Nd]; [|reflexivity]. cbn [andb].
           destruct (A a c H1 H2 Hc) as [Z0|[l' [j' [M1 [M2 [M3 [M4 [M5 M6]]]]]]]]; [rewrite Z0 in Ed; cbn in Ed; lia|].
           destruct (dm l' j' M4) as [G1 G2]. rewrite M5, G1 in Ed. subst l'. rewrite M5, G2.
           assert (j' <> i) by (intros ->; fold x in M6; lia).
           destruct (Z.ltb_spec j' i), (Z.ltb_spec j' (i + 1)); reflexivity || lia.
  - exists adj'. split; [exact E|]. split; [exact L|]. split; [intros i Hi; apply I1; lia|]. exact I3.
Qed.

(** The renumbering of an entry. *)
Definition renx (ren : Z -> Z) (x : Z) : Z := if x =? 0 then 0 else 4 * ren (x / 4) + x mod 4.

(** What the loop does to the adjacency. *)
Definition adj_rel (ok : Z -> bool) (n : Z) (ren : Z -> Z) (oa oa' : option (arr Z)) : Prop :=
  match oa, oa' with
  | None, None => True
  | Some adj, Some adj' => alen adj' = alen adj /\
      forall a i, 1 <= a <= n -> ok a = true -> 0 <= i < 4 -> ent adj' (ren a) i = renx ren (ent adj a i)
  | _, _ => False
  end.

Definition adj_pre (ok : Z -> bool) (n mx : Z) (oa : option (arr Z)) : Prop :=
  match oa with None => True | Some adj => alen adj = 4 * mx + 5 /\ AdjOK ok n adj end.

Lemma tet_loop_ok : forall fuel s k,
  1 <= k <= ene s -> ene s <= emax s -> alen (etet s) = emax s + 1 -> (Z.to_nat (ene s - k) < fuel)%nat ->
  eokf (etet s) (ene s) = true -> (forall i, 1 <= i < k -> eokf (etet s) i = true) ->
  adj_pre (eokf (etet s)) (ene s) (emax s) (eadj s) ->
  let P := plan (eokf (etet s)) (Z.to_nat (ene s - k + 1)) k (ene s) in
  exists s' ren, tet_loop fuel s k = Ret (1, s') /\ ene s' = k - 1 + plen P /\ emax s' = emax s /\ alen (etet s') = emax s + 1 /\
    (forall j, 0 <= j < plen P -> aget (etet s') (k + j) = aget (etet s) (nth (Z.to_nat j) P 0)) /\
    (forall i, i < k -> aget (etet s') i = aget (etet s) i) /\
    (forall i, ene s < i -> aget (etet s') i = aget (etet s) i) /\
    (forall i, ene s' < i <= ene s -> eokf (etet s') i = false) /\
    (forall i, 1 <= i < k -> ren i = i) /\ (forall j, 0 <= j < plen P -> ren (nth (Z.to_nat j) P 0) = k + j) /\
    adj_rel (eokf (etet s)) (ene s) ren (eadj s) (eadj s').
Proof.
  induction fuel as [|f IH]; intros s k Hk Hmax Hlen Hf Hlast Hlow Hadj P; [lia|].
  cbn [tet_loop]. rewrite rd_ok by lia. cbn [bind].
  assert (Extend : forall s1 q ren1,
     ene s1 <= ene s -> k <= ene s1 -> emax s1 = emax s -> alen (etet s1) = emax s + 1 -> eokf (etet s1) (ene s1) = true ->
     k <= q <= ene s -> aget (etet s1) k = aget (etet s) q -> eokf (etet s) q = true ->
     (forall i, i < k -> aget (etet s1) i = aget (etet s) i) -> (forall i, k < i <= ene s1 -> aget (etet s1) i = aget (etet s) i) ->
     (forall i, ene s < i -> aget (etet s1) i = aget (etet s) i) -> (forall i, ene s1 < i <= ene s -> eokf (etet s1) i = false) ->
     (forall i, 1 <= i < k -> ren1 i = i) -> ren1 q = k -> (forall i, k < i <= ene s1 -> i <> q -> ren1 i = i) ->
     (forall i, 1 <= i <= ene s -> eokf (etet s) i = true -> 1 <= ren1 i <= ene s1 /\ eokf (etet s1) (ren1 i) = true) ->
     adj_rel (eokf (etet s)) (ene s) ren1 (eadj s) (eadj s1) -> adj_pre (eokf (etet s1)) (ene s1) (emax s1) (eadj s1) ->
     P = q :: plan (eokf (etet s)) (Z.to_nat (ene s1 - (k + 1) + 1)) (k + 1) (ene s1) -> (q = k \/ ene s1 < q) ->
     exists s' ren, (if k + 1 <? ene s1 then tet_loop f s1 (k + 1) else Ret (1, s1)) = Ret (1, s') /\ ene s' = k - 1 + plen P /\ emax s' = emax s /\ alen (etet s') = emax s + 1 /\
      (forall j, 0 <= j < plen P -> aget (etet s') (k + j) = aget (etet s) (nth (Z.to_nat j) P 0)) /\
      (forall i, i < k -> aget (etet s') i = aget (etet s) i) /\
      (forall i, ene s < i -> aget (etet s') i = aget (etet s) i) /\
      (forall i, ene s' < i <= ene s -> eokf (etet s') i = false) /\
      (forall i, 1 <= i < k -> ren i = i) /\ (forall j, 0 <= j < plen P -> ren (nth (Z.to_nat j) P 0) = k + j) /\
      adj_rel (eokf (etet s)) (ene s) ren (eadj s) (eadj s')).
  { intros s1 q ren1 H1 H2 H3 H4 H5 H6 H7 H8 H9 H10 H11 H12 H13 H14 H15 H16 H17 H18 EP Hq.
    assert (Hend : live_end (eokf (etet s)) (k + 1) (ene s1)).
    { destruct (Z.eq_dec (ene s1) k); [left; lia|right]. unfold eokf in *. rewrite <- H10 by lia. exact H5. }
    assert (EP2 : plan (eokf (etet s1)) (Z.to_nat (ene s1 - (k + 1) + 1)) (k + 1) (ene s1) = plan (eokf (etet s)) (Z.to_nat (ene s1 - (k + 1) + 1)) (k + 1) (ene s1)).
    { symmetry. apply plan_ext; [|lia|exact Hend]. intros j Hj. unfold eokf. rewrite H10 by lia. reflexivity. }
    set (P1 := plan (eokf (etet s)) (Z.to_nat (ene s1 - (k + 1) + 1)) (k + 1) (ene s1)) in *.
    assert (HP1 : forall x, In x P1 -> k + 1 <= x <= ene s1).
    { intros x Hx. unfold P1 in Hx. apply plan_in in Hx; [lia|lia|exact Hend]. }
    assert (R : exists s' ren', (if k + 1 <? ene s1 then tet_loop f s1 (k + 1) else Ret (1, s1)) = Ret (1, s') /\ ene s' = k + plen P1 /\ emax s' = emax s /\ alen (etet s') = emax s + 1 /\
      (forall j, 0 <= j < plen P1 -> aget (etet s') (k + 1 + j) = aget (etet s1) (nth (Z.to_nat j) P1 0)) /\
      (forall i, i < k + 1 -> aget (etet s') i = aget (etet s1) i) /\
      (forall i, ene s1 < i -> aget (etet s') i = aget (etet s1) i) /\
      (forall i, ene s' < i <= ene s1 -> eokf (etet s') i = false) /\
      (forall i, 1 <= i < k + 1 -> ren' i = i) /\ (forall j, 0 <= j < plen P1 -> ren' (nth (Z.to_nat j) P1 0) = k + 1 + j) /\
      adj_rel (eokf (etet s1)) (ene s1) ren' (eadj s1) (eadj s')).
    { destruct (Z.ltb_spec (k + 1) (ene s1)).
      - assert (Hlow1 : forall i, 1 <= i < k + 1 -> eokf (etet s1) i = true).
        { intros i Hi. unfold eokf in *. destruct (Z.eq_dec i k) as [->|]; [rewrite H7; exact H8 | rewrite H9 by lia; apply Hlow; lia]. }
        destruct (IH s1 (k + 1) ltac:(lia) ltac:(lia) ltac:(lia) ltac:(lia) H5 Hlow1 H18) as [s' [ren' [E [Q1 [Q2 [Q3 [Q4 [Q5 [Q6 [Q7 [Q8 [Q9 Q10]]]]]]]]]]]].
        rewrite EP2 in *. exists s', ren'. split; [exact E|]. split; [lia|]. split; [lia|]. split; [lia|].
        repeat (split; [assumption|]). exact Q10.
      - exists s1, (fun i => i). split; [reflexivity|].
        assert (EP1 : plen P1 = ene s1 - k /\ (forall j, 0 <= j < plen P1 -> nth (Z.to_nat j) P1 0 = k + 1 + j)).
        { destruct (Z.eq_dec (ene s1) k) as [E1|N1].
          - assert (EP1 : P1 = []) by (unfold P1; replace (Z.to_nat (ene s1 - (k + 1) + 1)) with 0%nat by lia; reflexivity).
            rewrite EP1. unfold plen. cbn [length]. split; [lia | intros; lia].
          - assert (ene s1 = k + 1) as E1 by lia. destruct Hend as [Hend|Hend]; [lia|].
            assert (EP1 : P1 = [k + 1]). { unfold P1. rewrite E1 in *. replace (Z.to_nat (k + 1 - (k + 1) + 1)) with 1%nat by lia. apply plan_one. exact Hend. }
            rewrite EP1. unfold plen. cbn [length]. split; [lia|]. intros j Hj. assert (j = 0) as -> by lia. cbn. lia. }
        destruct EP1 as [EL EN].
        split; [lia|]. split; [exact H3|]. split; [exact H4|].
        split; [intros j Hj; rewrite EN by exact Hj; reflexivity|]. split; [reflexivity|]. split; [reflexivity|].
        split; [intros; lia|]. split; [reflexivity|]. split; [exact EN|].
        unfold adj_rel. destruct (eadj s1) as [adj|]; [|exact Logic.I]. split; [reflexivity|]. intros a i Ha Hoa Hi.
        unfold renx. destruct (Z.eqb_spec (ent adj a i) 0); [assumption|]. pose proof (Z.div_mod (ent adj a i) 4). lia. }
    destruct R as [s' [ren' [E [Q1 [Q2 [Q3 [Q4 [Q5 [Q6 [Q7 [Q8 [Q9 Q10]]]]]]]]]]]].
    exists s', (fun i => ren' (ren1 i)). rewrite E, EP, plen_cons.
    split; [reflexivity|]. split; [lia|]. split; [exact Q2|]. split; [exact Q3|]. split; [|split; [|split; [|split; [|split; [|split]]]]].
    - intros j Hj. destruct (Z.eq_dec j 0) as [->|].
      + cbn [Z.to_nat nth]. replace (k + 0) with k by lia. rewrite Q5 by lia. exact H7.
      + rewrite nth_cons_Z by lia. replace (k + j) with (k + 1 + (j - 1)) by lia. rewrite Q4 by lia.
        apply H10. assert (In (nth (Z.to_nat (j - 1)) P1 0) P1) by (apply nth_In; unfold plen in *; lia). pose proof (HP1 _ H). lia.
    - intros i Hi. rewrite Q5 by lia. apply H9. exact Hi.
    - intros i Hi. rewrite Q6 by lia. apply H11. exact Hi.
    - intros i Hi. destruct (Z_le_gt_dec i (ene s1)); [apply Q7; lia|]. unfold eokf in *. rewrite Q6 by lia. apply H12. lia.
    - intros i Hi. rewrite H13 by lia. apply Q8. lia.
    - intros j Hj. destruct (Z.eq_dec j 0) as [->|].
      + cbn [Z.to_nat nth]. rewrite H14. rewrite Q8 by lia. lia.
      + rewrite nth_cons_Z by lia. assert (Hin : In (nth (Z.to_nat (j - 1)) P1 0) P1) by (apply nth_In; unfold plen in *; lia).
        pose proof (HP1 _ Hin). rewrite H15 by lia. rewrite Q9 by lia. lia.
    - unfold adj_rel in *. destruct (eadj s) as [adj|], (eadj s1) as [adj1|], (eadj s') as [adj2|]; try contradiction; [|exact Logic.I].
      destruct H17 as [W1 W2], Q10 as [V1 V2]. split; [lia|]. intros a i Ha Hoa Hi.
      destruct (H16 a Ha Hoa) as [G1 G2]. rewrite V2 by auto. rewrite W2 by auto.
      destruct Hadj as [_ A]. unfold renx at 2 3. destruct (A a i Ha Hoa Hi) as [Z0|[l [j [L1 [L2 [L3 [L4 [L5 L6]]]]]]]].
      + rewrite Z0. reflexivity.
      + destruct (dm l j L4) as [D1 D2]. rewrite L5. destruct (Z.eqb_spec (4 * l + j) 0); [lia|]. rewrite D1, D2.
        destruct (H16 l L1 L2) as [G3 _]. unfold renx. destruct (Z.eqb_spec (4 * ren1 l + j) 0); [lia|].
        destruct (dm (ren1 l) j L4) as [D3 D4]. rewrite D3, D4. reflexivity. }
  destruct (eok (aget (etet s) k)) eqn:Ek.
  - cbn [bind]. replace (1 =? 0) with false by reflexivity.
    apply (Extend s k (fun i => i)); auto; try lia; try (intros; lia).
    + unfold adj_rel. destruct (eadj s) as [adj|]; [|exact Logic.I]. split; [reflexivity|]. intros a i Ha Hoa Hi.
      unfold renx. destruct (Z.eqb_spec (ent adj a i) 0); [assumption|]. pose proof (Z.div_mod (ent adj a i) 4). lia.
    + unfold P. replace (Z.to_nat (ene s - k + 1)) with (S (Z.to_nat (ene s - (k + 1) + 1))) by lia. cbn [plan].
      destruct (Z.ltb_spec (ene s) k); [lia|]. unfold eokf at 1. rewrite Ek. reflexivity.
  - assert (Nk : k <> ene s) by (intros ->; unfold eokf in Hlast; congruence).
    rewrite rd_ok by lia. cbn [bind]. unfold eokf in Hlast. rewrite Hlast. cbn [c_assert bind]. rewrite wr_ok by lia. cbn [bind].
    set (n := ene s) in *. set (a1 := mkArr (alen (etet s)) (upd (aget (etet s)) k (aget (etet s) n))).
    (* adjacency *)
    assert (Hmv : exists oa, (match eadj s with None => Ret None | Some adj => x <- move_adja adj k n ;; Ret (Some x) end) = Ret oa /\
       match eadj s, oa with
       | None, None => True
       | Some adj, Some adj' => alen adj' = alen adj /\ (forall i, 0 <= i < 4 -> ent adj' k i = ent adj n i) /\
           (forall a i, 1 <= a <= n -> eokf (etet s) a = true -> a <> n -> 0 <= i < 4 -> ent adj' a i = relab k n 4 (ent adj a i))
       | _, _ => False end).
    { destruct (eadj s) as [adj|].
      - destruct Hadj as [La A]. destruct (move_adja_ok (eokf (etet s)) adj k n A) as [adj' [E M]]; [lia|exact Ek|exact Hlast|lia|].
        exists (Some adj'). rewrite E. split; [reflexivity|exact M].
      - exists None. split; [reflexivity|exact Logic.I]. }
    destruct Hmv as [oa [Eoa Moa]]. rewrite Eoa. cbn [bind].
    unfold delElt. cbn [ene enil emax etet eadj].
    assert (A1n : aget a1 n = aget (etet s) n) by (unfold a1; cbn [aget]; apply upd_other; auto).
    rewrite rd_ok by (unfold a1; cbn [alen]; lia). cbn [bind]. rewrite A1n, Hlast. cbn [negb].
    rewrite wr_ok by (unfold a1; cbn [alen]; lia). cbn [bind].
    destruct (clear_adj_ok oa n (emax s)) as [oa2 [Ec Pc]]; [lia| |].
    { intros x Ex. rewrite Ex in Moa. destruct (eadj s) as [adj|]; [|contradiction]. destruct Hadj as [La _], Moa as [Lb _]. lia. }
    rewrite Ec. cbn [bind]. rewrite Z.eqb_refl.
    set (z := set_v3 tetra0 (enil s)). set (a2 := mkArr (alen a1) (upd (aget a1) n z)).
    assert (Hz : eok z = false) by reflexivity.
    assert (A2k : aget a2 k = aget (etet s) n) by (unfold a2, a1; cbn [aget]; rewrite upd_other by auto; apply upd_same).
    assert (A2n : aget a2 n = z) by (unfold a2; cbn [aget]; apply upd_same).
    assert (A2o : forall i, i <> k -> i <> n -> aget a2 i = aget (etet s) i) by (intros i I1 I2; unfold a2, a1; cbn [aget]; rewrite !upd_other; auto).
    destruct (trim_spec _ eok a2 (S (Z.to_nat n)) n) as [m [T1 [T2 [T3 T4]]]]; [unfold a2, a1; cbn [alen]; lia|lia|].
    rewrite T1. cbn [bind]. replace (1 =? 0) with false by reflexivity.
    assert (Hmk : k <= m). { destruct (Z_le_gt_dec k m); [assumption|]. pose proof (T4 k ltac:(lia)) as T. rewrite A2k in T. congruence. }
    assert (Hmn : m <> n). { intros ->. specialize (T3 ltac:(lia)). rewrite A2n in T3. discriminate. }
    assert (Hmok : m = k \/ eokf (etet s) m = true). { destruct (Z.eq_dec m k); [left; assumption|right]. unfold eokf. rewrite <- A2o by lia. apply T3. lia. }
    assert (Hgap : forall j, m < j <= n - 1 -> eokf (etet s) j = false). { intros j Hj. unfold eokf. rewrite <- A2o by lia. apply T4. lia. }
    assert (Hren : forall i, 1 <= i <= n -> eokf (etet s) i = true -> 1 <= (if i =? n then k else i) <= m /\ eokf a2 (if i =? n then k else i) = true).
    { intros i Hi Hoi. destruct (Z.eqb_spec i n) as [->|N2].
      - split; [lia|]. unfold eokf. rewrite A2k. exact Hlast.
      - assert (i <> k) by (intros ->; unfold eokf in Hoi; congruence).
        assert (i <= m). { destruct (Z_le_gt_dec i m); [assumption|]. rewrite Hgap in Hoi by lia. discriminate. }
        split; [lia|]. unfold eokf in *. rewrite A2o by auto. exact Hoi. }
    assert (Hrel : adj_rel (eokf (etet s)) n (fun i => if i =? n then k else i) (eadj s) oa2).
    { unfold adj_rel. destruct (eadj s) as [adj|], oa as [adj1|], oa2 as [adj2|]; try contradiction; [|exact Logic.I].
      destruct Moa as [M1 [M2 M3]], Pc as [C1 C2]. destruct Hadj as [La A]. split; [lia|].
      assert (Crow : forall a i, a <> n -> 0 <= i < 4 -> ent adj2 a i = ent adj1 a i).
      { intros a i Hn Hi. unfold ent. rewrite C2. unfold in_rows.
        destruct (Z.leb_spec (4 * (n - 1) + 1) (4 * (a - 1) + 1 + i)), (Z.leb_spec (4 * (a - 1) + 1 + i) (4 * (n - 1) + 4)); try reflexivity; lia. }
      intros a i Ha Hoa Hi. destruct (Z.eqb_spec a n) as [->|Na].
      - rewrite Crow by lia. rewrite M2 by lia. unfold renx.
        destruct (A n i ltac:(lia) Hlast Hi) as [Z0|[l [j [L1 [L2 [L3 [L4 [L5 L6]]]]]]]]; [rewrite Z0; reflexivity|].
        rewrite L5. destruct (Z.eqb_spec (4 * l + j) 0); [lia|]. destruct (dm l j L4) as [D1 D2]. rewrite D1, D2.
        destruct (Z.eqb_spec l n); [congruence|reflexivity].
      - rewrite Crow by lia. rewrite M3 by auto. unfold renx, relab.
        destruct (A a i Ha Hoa Hi) as [Z0|[l [j [L1 [L2 [L3 [L4 [L5 L6]]]]]]]].
        { rewrite Z0. change (0 / 4) with 0. destruct (Z.eqb_spec 0 n); [lia|reflexivity]. }
        rewrite L5. destruct (Z.eqb_spec (4 * l + j) 0); [lia|]. destruct (dm l j L4) as [D1 D2]. rewrite D1, D2.
        destruct (Z.ltb_spec j 4); [|lia]. rewrite andb_true_r. destruct (l =? n); reflexivity. }
    apply (Extend (mkE m n (emax s) a2 oa2) n (fun i => if i =? n then k else i)); cbn [ene emax etet eadj enil].
    + lia.
    + lia.
    + reflexivity.
    + unfold a2, a1. cbn [alen]. exact Hlen.
    + apply T3. lia.
    + lia.
    + exact A2k.
    + exact Hlast.
    + intros i Hi. apply A2o; lia.
    + intros i Hi. apply A2o; lia.
    + intros i Hi. apply A2o; lia.
    + intros i Hi. apply T4. lia.
    + intros i Hi. destruct (Z.eqb_spec i n); [lia|reflexivity].
    + rewrite Z.eqb_refl. reflexivity.
    + intros i Hi Ni. destruct (Z.eqb_spec i n); [congruence|reflexivity].
    + exact Hren.
    + exact Hrel.
    + unfold adj_pre. destruct oa2 as [adj2|]; [|exact Logic.I].
      unfold adj_rel in Hrel. destruct (eadj s) as [adj|]; [|contradiction]. destruct Hadj as [La A]. destruct Hrel as [Lb R].
      split; [lia|]. intros a' i Ha' Hoa' Hi.
      (* a' comes from a live element *)
      assert (Hsrc : exists a, 1 <= a <= n /\ eokf (etet s) a = true /\ (if a =? n then k else a) = a').
      { destruct (Z.eq_dec a' k) as [->|Nk'].
        - exists n. rewrite Z.eqb_refl. split; [lia|]. split; [exact Hlast|reflexivity].
        - exists a'. destruct (Z.eqb_spec a' n); [lia|]. split; [lia|]. split; [|reflexivity]. unfold eokf in *. rewrite A2o in Hoa' by lia. exact Hoa'. }
      destruct Hsrc as [a [Ha [Hoa Ea]]]. rewrite <- Ea. rewrite R by auto.
      destruct (A a i Ha Hoa Hi) as [Z0|[l [j [L1 [L2 [L3 [L4 [L5 L6]]]]]]]]; [left; rewrite Z0; reflexivity | right].
      exists (if l =? n then k else l), j. destruct (Hren l L1 L2) as [R1 R2]. split; [exact R1|]. split; [exact R2|].
      split. { clear - L2 L3 Hoa Ek. destruct (Z.eqb_spec l n), (Z.eqb_spec a n); [congruence| | |exact L3]; intros Q; [subst a | subst l]; unfold eokf in *; congruence. }
      split; [exact L4|]. rewrite R by auto. rewrite L5, L6. unfold renx.
      destruct (Z.eqb_spec (4 * l + j) 0) as [B1|]; [clear - B1 L1 L4; lia|]. destruct (Z.eqb_spec (4 * a + i) 0) as [B2|]; [clear - B2 Ha Hi; lia|].
      destruct (dm l j L4) as [D1 D2]. destruct (dm a i Hi) as [D3 D4]. rewrite D1, D2, D3, D4. split; reflexivity.
    + unfold P. replace (Z.to_nat (n - k + 1)) with (S (Z.to_nat (n - k))) by lia. cbn [plan].
      destruct (Z.ltb_spec n k); [lia|]. unfold eokf at 1. rewrite Ek.
      rewrite (down_unique (eokf (etet s)) (Z.to_nat (n - k)) k (n - 1) m); [|lia|lia|exact Hmok|exact Hgap].
      f_equal. apply plan_fuel; [lia|lia|]. destruct Hmok as [B|B]; [left; lia | right; exact B].
    + right. lia.
Qed.
