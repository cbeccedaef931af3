(** Loops of ScaleModel.v described pointwise. *)
From Coq Require Import ZArith QArith Qfield Lqa List Bool Lia.
From Verif Require Import CBase OctModel PropsOct2 ScaleModel.
Import ListNotations.
Open Scope Z_scope.

Lemma map_range A (f : Z -> arr A -> outcome (arr A)) (g : Z -> A -> A) lo hi a :
  lo <= hi + 1 ->
  (forall k a', lo <= k <= hi -> alen a' = alen a -> aget a' k = aget a k ->
     exists a'', f k a' = Ret a'' /\ alen a'' = alen a' /\ aget a'' k = g k (aget a k) /\
                 (forall j, j <> k -> aget a'' j = aget a' j)) ->
  exists a', for_range lo hi f a = Ret a' /\ alen a' = alen a /\
    forall j, aget a' j = if (lo <=? j) && (j <=? hi) then g j (aget a j) else aget a j.
Proof.
  intros H Hf.
  destruct (@for_range_inv _ (fun i a' => alen a' = alen a /\
      forall j, aget a' j = if (lo <=? j) && (j <? i) then g j (aget a j) else aget a j) f lo hi a)
    as (a' & E & L & G); [exact H| | |].
  - split; [reflexivity|]. intros j.
    destruct (Z.leb_spec lo j), (Z.ltb_spec j lo); cbn [andb]; try reflexivity; lia.
  - intros k s Hk [L G]. destruct (Hf k s Hk L) as (s' & E & L' & Gk & Go).
    { rewrite G. destruct (Z.ltb_spec k k); [lia|]. now rewrite andb_false_r. }
    exists s'. split; [exact E|]. split; [congruence|]. intros j.
    destruct (Z.eq_dec j k) as [->|Nj].
    + rewrite Gk. destruct (Z.leb_spec lo k), (Z.ltb_spec k (k + 1)); cbn [andb]; try reflexivity; lia.
    + rewrite Go by exact Nj. rewrite G.
      replace (j <? k + 1) with (j <? k) by (destruct (Z.ltb_spec j k), (Z.ltb_spec j (k + 1)); lia). reflexivity.
  - exists a'. split; [exact E|]. split; [exact L|]. intros j. rewrite G.
    replace (j <? hi + 1) with (j <=? hi) by (destruct (Z.ltb_spec j (hi + 1)), (Z.leb_spec j hi); lia). reflexivity.
Qed.

Lemma mg_min_spec a b : (mg_min a b <= a)%Q /\ (mg_min a b <= b)%Q /\ (mg_min a b = a \/ mg_min a b = b).
Proof. unfold mg_min. destruct (Qltb_spec a b) as [[-> H]|[-> H]]; repeat split; auto; lra. Qed.

Lemma mg_max_spec a b : (a <= mg_max a b)%Q /\ (b <= mg_max a b)%Q /\ (mg_max a b = a \/ mg_max a b = b).
Proof. unfold mg_max. destruct (Qltb_spec b a) as [[-> H]|[-> H]]; repeat split; auto; lra. Qed.

Lemma coords_in dim g c i : 0 <= i < dim -> coords dim g c i = g i (c i).
Proof. intros H. unfold coords. destruct (Z.leb_spec 0 i), (Z.ltb_spec i dim); cbn; reflexivity || lia. Qed.

Definition fits (m : smesh) : Prop := 0 <= m_np m < alen (m_pt m) /\ (m_dim m = 2 \/ m_dim m = 3).

Definition valid (m : smesh) (k : Z) : Prop := 1 <= k <= m_np m /\ vok (aget (m_pt m) k) = true.

(** ** Bounding box *)

Definition set_tmp (p : spt) : spt := if vok p then mkSpt (vok p) (sc p) (sflag p) 0 else p.

Lemma bbox_spec m :
  fits m ->
  exists ok pt mn mx d, boundingBox m = Ret (ok, with_info (with_pt m pt) (with_box (m_info m) mn mx d)) /\
    alen pt = alen (m_pt m) /\
    (forall j, aget pt j = if (1 <=? j) && (j <=? m_np m) then set_tmp (aget (m_pt m) j) else aget (m_pt m) j) /\
    (forall k i, valid m k -> 0 <= i < m_dim m -> (mn i <= sc (aget (m_pt m) k) i <= mx i)%Q) /\
    (forall i, 0 <= i < m_dim m -> (mx i - mn i <= d)%Q) /\
    (0 <= d)%Q /\
    ((d == 0)%Q \/ exists i, 0 <= i < m_dim m /\ d = (mx i - mn i)%Q) /\
    (forall i, 0 <= i < m_dim m ->
        (forall k, valid m k -> (- DBL_MAX <= sc (aget (m_pt m) k) i <= DBL_MAX)%Q) ->
        ~ (exists k, valid m k) \/
        (exists k, valid m k /\ (mn i == sc (aget (m_pt m) k) i)%Q) /\
        (exists k, valid m k /\ (mx i == sc (aget (m_pt m) k) i)%Q)) /\
    ok = negb (Qltb d EPSD).
Proof.
  intros [Hnp Hdim]. unfold boundingBox.
  set (mn0 := coords (m_dim m) (fun _ _ => DBL_MAX) (s_min (m_info m))).
  set (mx0 := coords (m_dim m) (fun _ _ => (- DBL_MAX)%Q) (s_max (m_info m))).
  destruct (@for_range_inv _ (fun n s => let '(pt, mn, mx) := s in
      alen pt = alen (m_pt m) /\
      (forall j, aget pt j = if (1 <=? j) && (j <? n) then set_tmp (aget (m_pt m) j) else aget (m_pt m) j) /\
      (forall i, 0 <= i < m_dim m ->
         (forall k, valid m k -> k < n -> (mn i <= sc (aget (m_pt m) k) i <= mx i)%Q) /\
         (mn i = DBL_MAX /\ (forall k, valid m k -> k < n -> (DBL_MAX <= sc (aget (m_pt m) k) i)%Q) \/
          exists k, valid m k /\ k < n /\ mn i = sc (aget (m_pt m) k) i) /\
         (mx i = (- DBL_MAX)%Q /\ (forall k, valid m k -> k < n -> (sc (aget (m_pt m) k) i <= - DBL_MAX)%Q) \/
          exists k, valid m k /\ k < n /\ mx i = sc (aget (m_pt m) k) i)))
    (bbox_step (m_dim m)) 1 (m_np m) (m_pt m, mn0, mx0)) as ([[pt mn] mx] & E & L & G & B); [lia| | |].
  - split; [reflexivity|]. split.
    + intros j. destruct (Z.leb_spec 1 j), (Z.ltb_spec j 1); cbn [andb]; try reflexivity; lia.
    + intros i Hi. unfold mn0, mx0. rewrite !coords_in by exact Hi. split; [|split].
      * intros k [Hk _] Hk'. lia.
      * left. split; [reflexivity|]. intros k [Hk _] Hk'. lia.
      * left. split; [reflexivity|]. intros k [Hk _] Hk'. lia.
  - intros n [[pt mn] mx] Hn (L & G & B). unfold bbox_step.
    rewrite rd_ok by lia. cbn [bind].
    assert (Gn : aget pt n = aget (m_pt m) n).
    { rewrite G. destruct (Z.ltb_spec n n); [lia|]. now rewrite andb_false_r. }
    rewrite Gn. destruct (vok (aget (m_pt m) n)) eqn:V; cbn [negb].
    + rewrite wr_ok by lia. cbn [bind]. eexists. split; [reflexivity|]. split; [exact L|]. split.
      * intros j. cbn [aget]. destruct (Z.eq_dec j n) as [->|Nj].
        -- rewrite upd_same. destruct (Z.leb_spec 1 n), (Z.ltb_spec n (n + 1)); cbn [andb]; try lia.
           unfold set_tmp. now rewrite V.
        -- rewrite upd_other by exact Nj. rewrite G.
           replace (j <? n + 1) with (j <? n) by (destruct (Z.ltb_spec j n), (Z.ltb_spec j (n + 1)); lia). reflexivity.
      * intros i Hi. rewrite !coords_in by exact Hi. destruct (B i Hi) as (B1 & B2 & B3).
        assert (Vn : valid m n) by (split; [lia|exact V]).
        assert (Sp : forall k, valid m k -> k < n + 1 -> k = n \/ k < n) by (intros; lia).
        set (x := sc (aget (m_pt m) n) i) in *.
        destruct (Qltb_spec x (mn i)) as [[-> H1]|[-> H1]]; destruct (Qltb_spec (mx i) x) as [[-> H2]|[-> H2]];
          (split; [|split]).
        1,4,7,10: intros k Hk Hk'; destruct (Sp k Hk Hk') as [->|Hlt]; fold x; [lra|pose proof (B1 k Hk Hlt); lra].
        -- right. exists n. split; [exact Vn|split;[lia|reflexivity]].
        -- right. exists n. split; [exact Vn|split;[lia|reflexivity]].
        -- right. exists n. split; [exact Vn|split;[lia|reflexivity]].
        -- destruct B3 as [[B3 B3']|(k & Hk & Hlt & B3)].
           ++ left. split; [exact B3|]. intros k Hk Hk'. destruct (Sp k Hk Hk') as [->|Hlt]; [fold x; rewrite <- B3; exact H2|auto].
           ++ right. exists k. split; [exact Hk|split;[lia|exact B3]].
        -- destruct B2 as [[B2 B2']|(k & Hk & Hlt & B2)].
           ++ left. split; [exact B2|]. intros k Hk Hk'. destruct (Sp k Hk Hk') as [->|Hlt]; [fold x; rewrite <- B2; exact H1|auto].
           ++ right. exists k. split; [exact Hk|split;[lia|exact B2]].
        -- right. exists n. split; [exact Vn|split;[lia|reflexivity]].
        -- destruct B2 as [[B2 B2']|(k & Hk & Hlt & B2)].
           ++ left. split; [exact B2|]. intros k Hk Hk'. destruct (Sp k Hk Hk') as [->|Hlt]; [fold x; rewrite <- B2; exact H1|auto].
           ++ right. exists k. split; [exact Hk|split;[lia|exact B2]].
        -- destruct B3 as [[B3 B3']|(k & Hk & Hlt & B3)].
           ++ left. split; [exact B3|]. intros k Hk Hk'. destruct (Sp k Hk Hk') as [->|Hlt]; [fold x; rewrite <- B3; exact H2|auto].
           ++ right. exists k. split; [exact Hk|split;[lia|exact B3]].
    + eexists. split; [reflexivity|]. split; [exact L|]. 
      assert (Nv : forall k, valid m k -> k < n + 1 -> k < n).
      { intros k [Hk Vk] Hlt. destruct (Z.eq_dec k n) as [->|]; [congruence|lia]. }
      split.
      * intros j. rewrite G. destruct (Z.eq_dec j n) as [->|Nj].
        -- destruct (Z.leb_spec 1 n), (Z.ltb_spec n n), (Z.ltb_spec n (n + 1)); cbn [andb]; try lia.
           unfold set_tmp. now rewrite V.
        -- replace (j <? n + 1) with (j <? n) by (destruct (Z.ltb_spec j n), (Z.ltb_spec j (n + 1)); lia). reflexivity.
      * intros i Hi. destruct (B i Hi) as (B1 & B2 & B3). split; [|split].
        -- intros k Hk Hlt. auto.
        -- destruct B2 as [[B2 B2']|(k & Hk & Hlt & B2)]; [left; split; auto | right; exists k; split; [exact Hk|split;[lia|exact B2]]].
        -- destruct B3 as [[B3 B3']|(k & Hk & Hlt & B3)]; [left; split; auto | right; exists k; split; [exact Hk|split;[lia|exact B3]]].
  - rewrite E. cbn [bind].
    assert (Hlt : forall k, valid m k -> k < m_np m + 1) by (intros k [Hk _]; lia).
    destruct (@for_range_inv _ (fun n d =>
        (0 <= d)%Q /\ (forall i, 0 <= i < n -> (mx i - mn i <= d)%Q) /\
        ((d == 0)%Q \/ exists i, 0 <= i < n /\ d = (mx i - mn i)%Q))
      (fun i d => Ret (if Qltb d (mx i - mn i) then (mx i - mn i)%Q else d)) 0 (m_dim m - 1) 0%Q)
      as (d & E2 & D0 & D1 & D2).
    + destruct Hdim as [->| ->]; lia.
    + split; [lra|]. split; [intros i Hi; lia|]. left. reflexivity.
    + intros i d Hi (D0 & D1 & D2). eexists. split; [reflexivity|].
      assert (Sp : forall j, 0 <= j < i + 1 -> j = i \/ 0 <= j < i) by (intros; lia).
      destruct (Qltb_spec d (mx i - mn i)) as [[-> H]|[-> H]].
      * split; [lra|]. split.
        -- intros j Hj. destruct (Sp j Hj) as [->|Hj']; [lra|]. pose proof (D1 j Hj'). lra.
        -- right. exists i. split; [lia|reflexivity].
      * split; [exact D0|]. split.
        -- intros j Hj. destruct (Sp j Hj) as [->|Hj']; [lra|]. apply D1. exact Hj'.
        -- destruct D2 as [D2|(j & Hj & D2)]; [left; exact D2 | right; exists j; split; [lia|exact D2]].
    + replace (m_dim m - 1 + 1) with (m_dim m) in * by lia.
      exists (negb (Qltb d EPSD)), pt, mn, mx, d.
      split; [rewrite E2; cbn [bind]; destruct (Qltb d EPSD); reflexivity|].
      split; [exact L|]. split.
      { intros j. rewrite G. replace (j <? m_np m + 1) with (j <=? m_np m)
          by (destruct (Z.ltb_spec j (m_np m + 1)), (Z.leb_spec j (m_np m)); lia). reflexivity. }
      split; [intros k i Hk Hi; destruct (B i Hi) as (B1 & _); auto|].
      split; [exact D1|]. split; [exact D0|]. split; [exact D2|]. split; [|reflexivity].
      { intros i Hi Hb. destruct (B i Hi) as (B1 & B2 & B3).
        assert (Dv : (forall k, ~ valid m k) \/ exists k, valid m k).
        { clear - m. destruct (List.existsb (fun k => vok (aget (m_pt m) k)) (map (fun n => Z.of_nat n) (seq 1 (Z.to_nat (m_np m))))) eqn:Ex.
          - right. apply existsb_exists in Ex. destruct Ex as (k & Hk & V). exists k. split; [|exact V].
            apply in_map_iff in Hk. destruct Hk as (n & <- & Hn). apply in_seq in Hn. lia.
          - left. intros k [Hk V]. apply not_true_iff_false in Ex. apply Ex. apply existsb_exists.
            exists k. split; [|exact V]. apply in_map_iff. exists (Z.to_nat k). split; [lia|]. apply in_seq. lia. }
        destruct Dv as [Nv|(k0 & Hk0)]; [left; intros (k & Hk); eapply Nv; eauto|]. right. split.
        -- destruct B2 as [[B2 B2']|(k & Hk & _ & B2)].
           ++ exists k0. split; [exact Hk0|]. rewrite B2. pose proof (B2' k0 Hk0 (Hlt _ Hk0)). pose proof (Hb k0 Hk0).
              apply Qle_antisym; [exact H|apply H0].
           ++ exists k. split; [exact Hk|]. rewrite B2. reflexivity.
        -- destruct B3 as [[B3 B3']|(k & Hk & _ & B3)].
           ++ exists k0. split; [exact Hk0|]. rewrite B3. pose proof (B3' k0 Hk0 (Hlt _ Hk0)). pose proof (Hb k0 Hk0).
              apply Qle_antisym; [apply H0|exact H].
           ++ exists k. split; [exact Hk|]. rewrite B3. reflexivity. }
Qed.

(** ** Values attached to vertices *)

Lemma inner_vals size k dd (a : arr Q) :
  1 <= size -> 0 <= k -> k * size + size <= alen a ->
  exists a', for_range 0 (size - 1) (fun i a => v <- rd a (k * size + i) ;; wr a (k * size + i) (v * dd)%Q) a = Ret a' /\
    alen a' = alen a /\
    forall j, aget a' j = if (k * size <=? j) && (j <? k * size + size) then (aget a j * dd)%Q else aget a j.
Proof.
  intros Hs Hk Ha.
  destruct (@for_range_inv _ (fun n a' => alen a' = alen a /\
     forall j, aget a' j = if (k * size <=? j) && (j <? k * size + n) then (aget a j * dd)%Q else aget a j)
    (fun i a => v <- rd a (k * size + i) ;; wr a (k * size + i) (v * dd)%Q) 0 (size - 1) a) as (a' & E & L & G); [lia| | |].
  - split; [reflexivity|]. intros j.
    destruct (Z.leb_spec (k * size) j), (Z.ltb_spec j (k * size + 0)); cbn [andb]; try reflexivity; lia.
  - intros i s Hi [L G]. assert (0 <= k * size + i < alen s) by (rewrite L; nia).
    rewrite rd_ok by exact H. cbn [bind]. rewrite wr_ok by exact H.
    eexists. split; [reflexivity|]. split; [exact L|]. intros j. cbn [aget].
    destruct (Z.eq_dec j (k * size + i)) as [->|Nj].
    + rewrite upd_same, G.
      destruct (Z.leb_spec (k * size) (k * size + i)), (Z.ltb_spec (k * size + i) (k * size + i)), (Z.ltb_spec (k * size + i) (k * size + (i + 1)));
        cbn [andb]; try lia. reflexivity.
    + rewrite upd_other by exact Nj. rewrite G.
      replace (j <? k * size + (i + 1)) with (j <? k * size + i); [reflexivity|].
      destruct (Z.ltb_spec j (k * size + i)), (Z.ltb_spec j (k * size + (i + 1))); lia.
  - exists a'. split; [exact E|]. split; [exact L|]. intros j. rewrite G.
    replace (k * size + (size - 1 + 1)) with (k * size + size) by lia. reflexivity.
Qed.

(** The value at [j] belongs to the valid vertex [j/size]. *)
Definition owned (pt : arr spt) (np size j : Z) : bool :=
  (1 <=? j / size) && (j / size <=? np) && vok (aget pt (j / size)).

Lemma div_block size k j : 1 <= size -> (k * size <= j < k * size + size <-> j / size = k).
Proof.
  intros Hs. split.
  - intros H. symmetry. apply Z.div_unique with (j - k * size); lia.
  - intros <-. pose proof (Z.div_mod j size ltac:(lia)). pose proof (Z.mod_pos_bound j size ltac:(lia)). nia.
Qed.

Lemma block_bool size k j : 1 <= size -> (k * size <=? j) && (j <? k * size + size) = (j / size =? k).
Proof.
  intros Hs. pose proof (div_block size k j Hs) as D.
  destruct (Z.eqb_spec (j / size) k) as [E|N].
  - apply D in E. destruct (Z.leb_spec (k * size) j), (Z.ltb_spec j (k * size + size)); cbn; lia.
  - destruct (Z.leb_spec (k * size) j), (Z.ltb_spec j (k * size + size)); cbn; try reflexivity.
    exfalso. apply N, D. lia.
Qed.

Lemma vals_spec (pt : arr spt) np size dd a :
  1 <= size -> 0 <= np < alen pt -> size * (np + 1) <= alen a ->
  exists a', unscale_vals pt np size dd a = Ret a' /\ alen a' = alen a /\
    forall j, aget a' j = if owned pt np size j then (aget a j * dd)%Q else aget a j.
Proof.
  intros Hs Hnp Ha. unfold unscale_vals.
  destruct (@for_range_inv _ (fun n a' => alen a' = alen a /\
     forall j, aget a' j = if owned pt (n - 1) size j then (aget a j * dd)%Q else aget a j)
    (fun k a => p <- rd pt k ;; if negb (vok p) then Ret a
       else for_range 0 (size - 1) (fun i a => v <- rd a (k * size + i) ;; wr a (k * size + i) (v * dd)%Q) a)
    1 np a) as (a' & E & L & G); [lia| | |].
  - split; [reflexivity|]. intros j. unfold owned.
    destruct (Z.leb_spec 1 (j / size)), (Z.leb_spec (j / size) (1 - 1)); cbn [andb]; try reflexivity; lia.
  - intros k s Hk [L G]. rewrite rd_ok by lia. cbn [bind].
    destruct (vok (aget pt k)) eqn:V; cbn [negb].
    + destruct (inner_vals size k dd s) as (s' & E & L' & G'); [lia|lia|rewrite L; nia|].
      exists s'. split; [exact E|]. split; [congruence|]. intros j. rewrite G', block_bool by lia. rewrite G.
      unfold owned. destruct (Z.eqb_spec (j / size) k) as [->|Nk].
      * destruct (Z.leb_spec 1 k), (Z.leb_spec k (k - 1)), (Z.leb_spec k (k + 1 - 1)); cbn [andb]; try lia.
        now rewrite V.
      * replace (j / size <=? k + 1 - 1) with (j / size <=? k - 1); [reflexivity|].
        destruct (Z.leb_spec (j / size) (k - 1)), (Z.leb_spec (j / size) (k + 1 - 1)); lia.
    + exists s. split; [reflexivity|]. split; [exact L|]. intros j. rewrite G. unfold owned.
      destruct (Z.eq_dec (j / size) k) as [->|Nk].
      * rewrite V, !andb_false_r. reflexivity.
      * replace (j / size <=? k + 1 - 1) with (j / size <=? k - 1); [reflexivity|].
        destruct (Z.leb_spec (j / size) (k - 1)), (Z.leb_spec (j / size) (k + 1 - 1)); lia.
  - exists a'. split; [exact E|]. split; [exact L|]. intros j. rewrite G.
    replace (np + 1 - 1) with np by lia. reflexivity.
Qed.

(** ** [MMG5_scale_meshAndSol] *)

Definition plain_ok (m : smesh) (met sol : option ssol) : Prop :=
  match sol with
  | None => True
  | Some s => (l_type s = 1 /\ l_size s = 1 \/ l_type s = 2 /\ l_size s = m_dim m) /\
              (is_plain (m_info m) = true -> l_m s = None) /\
              match l_m s with None => l_np s = 0 | Some a => l_size s * (m_np m + 1) <= alen a end
  end /\
  match met with
  | None => True
  | Some s => (l_type s = 1 /\ l_size s = 1 \/ l_type s = 3 /\ l_size s = 3 * (m_dim m - 1)) /\
              match l_m s with None => l_np s = 0 | Some a => l_size s * (m_np m + 1) <= alen a end
  end.

(** What scaling does to the parameters. *)
Definition info_rel (i i' : sinfo) (dd : Q) : Prop :=
  s_hausd i' = (s_hausd i * dd)%Q /\ s_ls i' = (s_ls i * dd)%Q /\ s_hsiz i' = (s_hsiz i * dd)%Q /\
  s_par i' = map (scale_par dd) (s_par i) /\
  s_sethmin i' = s_sethmin i /\ s_sethmax i' = s_sethmax i /\
  (s_sethmin i = true -> s_hmin i' = (s_hmin i * dd)%Q) /\ (s_sethmax i = true -> s_hmax i' = (s_hmax i * dd)%Q).

Definition pts_rel (m m' : smesh) (dd : Q) : Prop :=
  m_dim m' = m_dim m /\ m_np m' = m_np m /\ alen (m_pt m') = alen (m_pt m) /\
  (forall j, vok (aget (m_pt m') j) = vok (aget (m_pt m) j)) /\
  (forall k i, valid m k -> 0 <= i < m_dim m ->
     sc (aget (m_pt m') k) i = (dd * (sc (aget (m_pt m) k) i - s_min (m_info m') i))%Q /\
     (0 <= sc (aget (m_pt m') k) i <= 1)%Q) /\
  dd = (1 / s_delta (m_info m'))%Q /\ (0 < s_delta (m_info m'))%Q.

Definition sol_rel (m : smesh) (s s' : option ssol) (dd : Q) : Prop :=
  match s, s' with
  | None, None => True
  | Some s, Some s' => l_np s' = l_np s /\ l_size s' = l_size s /\ l_type s' = l_type s /\
      match l_m s, l_m s' with
      | None, None => True
      | Some a, Some a' => alen a' = alen a /\
          (l_np s = 0 -> a' = a) /\
          (l_np s <> 0 -> forall j, l_size s <= j < l_size s * (m_np m + 1) -> aget a' j = (aget a j * dd)%Q)
      | _, _ => False
      end
  | _, _ => False
  end.

Lemma EPSD_pos : (0 < EPSD)%Q. Proof. reflexivity. Qed.

Lemma default_spec i a b :
  exists ok i', Set_defaultTruncatureSizes i a b = Ret (ok, i') /\
    i' = with_h i (s_hmin i') (s_hmax i') /\ (a = true -> s_hmin i' = s_hmin i) /\ (b = true -> s_hmax i' = s_hmax i) /\
    (ok = true -> (s_hmin i' <= s_hmax i')%Q) /\
    (a = false -> b = false -> s_hmin i' = HMINCOE /\ s_hmax i' = HMAXCOE) /\
    (a = false -> b = true -> s_hmin i' = mg_min HMINCOE (HMINCOE * s_hmax i)%Q) /\
    (a = true -> b = false -> s_hmax i' = mg_max HMAXCOE ((1 / HMINCOE) * s_hmin i)%Q) /\
    (ok = false <-> Qltb (s_hmax i') (s_hmin i') = true) \/
  Set_defaultTruncatureSizes i a b = Stuck /\ negb (a && b) = true /\
    (a = false /\ b = true /\ (s_hmax i < mg_min HMINCOE (HMINCOE * s_hmax i))%Q \/
     a = true /\ b = false /\ (mg_max HMAXCOE ((1 / HMINCOE) * s_hmin i) < s_hmin i)%Q).
Proof.
  unfold Set_defaultTruncatureSizes. destruct a, b; cbn [negb]; cbv zeta; cbn [s_hmin s_hmax with_h andb c_assert].
  - exists (negb (Qltb (s_hmax i) (s_hmin i))), i. left.
    destruct (Qltb_spec (s_hmax i) (s_hmin i)) as [[E H]|[E H]]; rewrite E; cbn [bind negb];
      (split; [reflexivity|]); (split; [destruct i; reflexivity|]); repeat split; try congruence; try discriminate; intros; auto.
  - destruct (Qltb_spec (mg_max HMAXCOE ((1 / HMINCOE) * s_hmin i)) (s_hmin i)) as [[E H]|[E H]]; rewrite E; cbn [bind].
    + exists true, i. right. auto 8.
    + eexists true, _. left. split; [reflexivity|]. cbn [s_hmin s_hmax with_h]. rewrite E. repeat split; try congruence; try discriminate; auto.
  - destruct (Qltb_spec (s_hmax i) (mg_min HMINCOE (HMINCOE * s_hmax i))) as [[E H]|[E H]]; rewrite E; cbn [bind].
    + exists true, i. right. auto 8.
    + eexists true, _. left. split; [reflexivity|]. cbn [s_hmin s_hmax with_h]. rewrite E. repeat split; try congruence; try discriminate; auto.
  - change (Qltb HMAXCOE HMINCOE) with false. cbn match.
    eexists true, _. left. split; [reflexivity|]. cbn [s_hmin s_hmax with_h].
    change (Qltb HMAXCOE HMINCOE) with false.
    repeat split; try congruence; try discriminate; auto.
Qed.

Lemma default_ok i a b :
  (a = true -> (0 <= s_hmin i)%Q) -> (b = true -> (0 <= s_hmax i)%Q) ->
  exists ok i', Set_defaultTruncatureSizes i a b = Ret (ok, i') /\
    i' = with_h i (s_hmin i') (s_hmax i') /\ (a = true -> s_hmin i' = s_hmin i) /\ (b = true -> s_hmax i' = s_hmax i) /\
    (ok = true -> (s_hmin i' <= s_hmax i')%Q) /\
    (a = false -> b = false -> s_hmin i' = HMINCOE /\ s_hmax i' = HMAXCOE) /\
    (a = false -> b = true -> s_hmin i' = mg_min HMINCOE (HMINCOE * s_hmax i)%Q) /\
    (a = true -> b = false -> s_hmax i' = mg_max HMAXCOE ((1 / HMINCOE) * s_hmin i)%Q) /\
    (ok = false <-> Qltb (s_hmax i') (s_hmin i') = true).
Proof.
  intros Ha Hb. destruct (default_spec i a b) as (ok & i' & [H|(_ & _ & [(-> & -> & H)|(-> & -> & H)])]).
  - exists ok, i'. exact H.
  - exfalso. specialize (Hb eq_refl). destruct (mg_min_spec HMINCOE (HMINCOE * s_hmax i)) as (_ & M & _).
    apply (Qlt_not_le _ _ H). eapply Qle_trans; [exact M|]. unfold HMINCOE. lra.
  - exfalso. specialize (Ha eq_refl). destruct (mg_max_spec HMAXCOE ((1 / HMINCOE) * s_hmin i)) as (_ & M & _).
    apply (Qlt_not_le _ _ H). eapply Qle_trans; [|exact M].
    assert (E : (1 / HMINCOE == 1000)%Q) by reflexivity. rewrite E. lra.
Qed.

Lemma check_setted_pos i :
  check_setted_hminhmax i = true ->
  (s_sethmin i = true -> (0 <= s_hmin i)%Q) /\ (s_sethmax i = true -> (0 <= s_hmax i)%Q).
Proof.
  unfold check_setted_hminhmax.
  destruct (Qltb_spec (s_hmin i) 0) as [[-> H]|[-> H]], (Qltb_spec (s_hmax i) 0) as [[-> H']|[-> H']],
    (s_sethmin i), (s_sethmax i); cbn; intros E; try discriminate; split; intros; try discriminate; auto.
Qed.

Lemma sol_loop size np dd (a : arr Q) :
  1 <= size -> 0 <= np -> size * (np + 1) <= alen a ->
  exists a', for_range size (size * (np + 1) - 1) (fun k a => v <- rd a k ;; wr a k (v * dd)%Q) a = Ret a' /\
    alen a' = alen a /\ forall j, size <= j < size * (np + 1) -> aget a' j = (aget a j * dd)%Q.
Proof.
  intros Hs Hn La.
  destruct (@map_range _ (fun k a => v <- rd a k ;; wr a k (v * dd)%Q) (fun _ v => (v * dd)%Q)
     size (size * (np + 1) - 1) a) as (a' & Ea & La' & Ga).
  - nia.
  - intros k a' Hk La' Ga'. rewrite rd_ok by nia. cbn [bind]. rewrite wr_ok by nia.
    eexists. split; [reflexivity|]. split; [reflexivity|]. cbn [aget]. split; [rewrite upd_same; now rewrite Ga'|].
    intros j Hj. now rewrite upd_other.
  - exists a'. split; [exact Ea|]. split; [exact La'|]. intros j Hj. rewrite Ga.
    destruct (Z.leb_spec size j), (Z.leb_spec j (size * (np + 1) - 1)); cbn [andb]; try lia. reflexivity.
Qed.

(** The scaled box touches the unit box. *)
Definition tight (m m' : smesh) : Prop :=
  (exists k, valid m k) ->
  (forall k i, valid m k -> 0 <= i < m_dim m -> (- DBL_MAX <= sc (aget (m_pt m) k) i <= DBL_MAX)%Q) ->
  (forall i, 0 <= i < m_dim m -> exists k, valid m k /\ (sc (aget (m_pt m') k) i == 0)%Q) /\
  (exists i k, 0 <= i < m_dim m /\ valid m k /\ (sc (aget (m_pt m') k) i == 1)%Q).

(** The reasons for which the mesh is refused. *)
Definition refusal (m : smesh) : Prop :=
  (forall j k i, valid m j -> valid m k -> 0 <= i < m_dim m ->
     (sc (aget (m_pt m) j) i - sc (aget (m_pt m) k) i < EPSD)%Q) \/
  s_sethmin (m_info m) = true /\ (s_hmin (m_info m) < 0)%Q \/
  s_sethmax (m_info m) = true /\ (s_hmax (m_info m) < 0)%Q \/
  s_sethmin (m_info m) = true /\ s_sethmax (m_info m) = true /\ (s_hmax (m_info m) < s_hmin (m_info m))%Q.

Lemma check_setted_neg i :
  check_setted_hminhmax i = false ->
  s_sethmin i = true /\ (s_hmin i < 0)%Q \/ s_sethmax i = true /\ (s_hmax i < 0)%Q.
Proof.
  unfold check_setted_hminhmax.
  destruct (Qltb_spec (s_hmin i) 0) as [[-> H]|[-> H]], (Qltb_spec (s_hmax i) 0) as [[-> H']|[-> H']],
    (s_sethmin i), (s_sethmax i); cbn; intros E; try discriminate; auto.
Qed.

Lemma ms_spec m met sol :
  fits m -> plain_ok m met sol ->
  exists ok m' sol' dd, scale_meshAndSol m met sol = Ret (ok, m', sol', dd) /\
    (ok = true ->
      pts_rel m m' dd /\ info_rel (m_info m) (m_info m') dd /\ sol_rel m sol sol' dd /\
      m_base m' = m_base m /\ (forall j, sflag (aget (m_pt m') j) = sflag (aget (m_pt m) j)) /\
      (forall k i, valid m k -> 0 <= i < m_dim m ->
         (s_min (m_info m') i <= sc (aget (m_pt m) k) i <= s_max (m_info m') i)%Q) /\
      check_setted_hminhmax (m_info m) = true /\
      tight m m' /\
      (Qltb 0 (s_hsiz (m_info m')) || s_optim (m_info m) = false -> has_np met = false ->
         (s_hmin (m_info m') <= s_hmax (m_info m'))%Q /\
         (s_sethmin (m_info m) = false -> s_sethmax (m_info m) = false ->
            s_hmin (m_info m') = HMINCOE /\ s_hmax (m_info m') = HMAXCOE) /\
         (s_sethmin (m_info m) = false -> s_sethmax (m_info m) = true ->
            s_hmin (m_info m') = mg_min HMINCOE (HMINCOE * s_hmax (m_info m'))%Q) /\
         (s_sethmin (m_info m) = true -> s_sethmax (m_info m) = false ->
            s_hmax (m_info m') = mg_max HMAXCOE ((1 / HMINCOE) * s_hmin (m_info m'))%Q))) /\
    (ok = false -> refusal m).
Proof.
  intros F [Hsol Hmet]. unfold scale_meshAndSol.
  replace (match sol with Some s => (l_type s =? 1) || (l_type s =? 2) | None => true end) with true.
  2:{ destruct sol as [s|]; [|reflexivity]. destruct Hsol as ([[-> _]|[-> _]] & _); reflexivity. }
  cbn [c_assert bind].
  replace (match met with Some s => negb (l_type s =? 2) | None => true end) with true.
  2:{ destruct met as [s|]; [|reflexivity]. destruct Hmet as ([[-> _]|[-> _]] & _); reflexivity. }
  cbn [c_assert bind].
  replace (negb (is_plain (m_info m) && has_m sol)) with true.
  2:{ destruct sol as [s|]; [|now rewrite andb_false_r]. destruct Hsol as (_ & Hp & _). cbn [has_m].
      destruct (is_plain (m_info m)); [rewrite Hp by reflexivity|]; reflexivity. }
  cbn [c_assert bind].
  destruct (bbox_spec m F) as (ok & pt & mn & mx & d & E & L & G & B & D1 & D0 & D2 & D3 & Eok).
  rewrite E. cbn [bind]. destruct ok; cbn [negb].
  2:{ eexists false, _, _, _. split; [reflexivity|]. split; [discriminate|]. intros _. left. intros j k i Hj Hk Hi.
      destruct (Qltb_spec d EPSD) as [[Ed H]|[Ed H]]; rewrite Ed in Eok; [|discriminate].
      destruct (B j i Hj Hi), (B k i Hk Hi). specialize (D1 i Hi). clear - D1 H H0 H1 H2 H3. lra. }
  assert (Dp : (0 < d)%Q).
  { destruct (Qltb_spec d EPSD) as [[Ed H]|[Ed H]]; rewrite Ed in Eok; [discriminate|].
    eapply Qlt_le_trans; [apply EPSD_pos|exact H]. }
  cbn [m_info with_info with_pt with_box s_delta s_min s_max m_np m_dim m_pt s_hmin s_hmax s_hausd s_ls s_hsiz s_sethmin s_sethmax s_optim s_iso s_isosurf s_lag s_par].
  set (dd := (1 / d)%Q).
  assert (Ddd : (dd * d == 1)%Q) by (unfold dd; field; intros X; rewrite X in Dp; now apply Qlt_irrefl in Dp).
  assert (Pdd : (0 < dd)%Q) by (unfold dd; apply Qlt_shift_div_l; [exact Dp|lra]).
  destruct F as [Fnp Fdim].
  destruct (@map_range _ (norm_step (m_dim m) dd mn)
     (fun k p => if vok p then mkSpt (vok p) (coords (m_dim m) (fun i x => (dd * (x - mn i))%Q) (sc p)) (sflag p) (stmp p) else p)
     1 (m_np m) pt) as (pt' & E' & L' & G'); [lia| |].
  { intros k a' Hk La' Ga'. unfold norm_step. rewrite rd_ok by lia. cbn [bind]. rewrite Ga'.
    destruct (vok (aget pt k)) eqn:V; cbn [negb].
    - rewrite wr_ok by lia. eexists. split; [reflexivity|]. split; [reflexivity|]. cbn [aget]. split; [now rewrite upd_same|].
      intros j Hj. now rewrite upd_other.
    - eexists. split; [reflexivity|]. auto. }
  rewrite E'. cbn [bind].
  assert (Gf : forall j, vok (aget pt' j) = vok (aget (m_pt m) j) /\ sflag (aget pt' j) = sflag (aget (m_pt m) j)).
  { intros j. rewrite G', G. unfold set_tmp. destruct ((1 <=? j) && (j <=? m_np m));
      [|auto]. destruct (vok (aget (m_pt m) j)) eqn:V; cbn [vok]; rewrite ?V; cbn; auto. }
  assert (Gc : forall k i, valid m k -> 0 <= i < m_dim m ->
     sc (aget pt' k) i = (dd * (sc (aget (m_pt m) k) i - mn i))%Q /\ (0 <= sc (aget pt' k) i <= 1)%Q).
  { intros k i [Hk V] Hi.
    assert (X : sc (aget pt' k) i = (dd * (sc (aget (m_pt m) k) i - mn i))%Q).
    { rewrite G', G. unfold set_tmp. rewrite V.
      replace ((1 <=? k) && (k <=? m_np m)) with true by (destruct (Z.leb_spec 1 k), (Z.leb_spec k (m_np m)); cbn; lia).
      cbn [vok sc]. rewrite coords_in by exact Hi. reflexivity. }
    split; [exact X|]. rewrite X. destruct (B k i (conj Hk V) Hi) as [B1 B2]. pose proof (D1 i Hi) as B3.
    set (x := sc (aget (m_pt m) k) i) in *. set (n := mn i) in *. set (w := mx i) in *. nra. }
  set (i0 := mkInfo mn mx d (s_hmin (m_info m)) (s_hmax (m_info m)) (s_hausd (m_info m) * dd)%Q (s_ls (m_info m) * dd)%Q
     (s_hsiz (m_info m) * dd)%Q (s_sethmin (m_info m)) (s_sethmax (m_info m)) (s_optim (m_info m)) (s_iso (m_info m))
     (s_isosurf (m_info m)) (s_lag (m_info m)) (map (scale_par dd) (s_par (m_info m)))).
  change (check_setted_hminhmax i0) with (check_setted_hminhmax (m_info m)).
  destruct (check_setted_hminhmax (m_info m)) eqn:Cs; cbn [negb].
  2:{ eexists false, _, _, _. split; [reflexivity|]. split; [discriminate|]. intros _. right.
      destruct (check_setted_neg _ Cs); auto. }
  destruct (check_setted_pos _ Cs) as [Pmin Pmax].
  set (i1 := with_h i0 (if s_sethmin (m_info m) then (s_hmin (m_info m) * dd)%Q else s_hmin (m_info m))
                       (if s_sethmax (m_info m) then (s_hmax (m_info m) * dd)%Q else s_hmax (m_info m))).
  change (s_hsiz i1) with (s_hsiz (m_info m) * dd)%Q. change (s_optim i1) with (s_optim (m_info m)).
  change (s_sethmin i1) with (s_sethmin (m_info m)). change (s_sethmax i1) with (s_sethmax (m_info m)).
  assert (Hd : exists ok i2, (if negb (Qltb 0 (s_hsiz (m_info m) * dd) || s_optim (m_info m)) && negb (has_np met)
      then Set_defaultTruncatureSizes i1 (s_sethmin (m_info m)) (s_sethmax (m_info m)) else Ret (true, i1)) = Ret (ok, i2) /\
      i2 = with_h i1 (s_hmin i2) (s_hmax i2) /\
      (s_sethmin (m_info m) = true -> s_hmin i2 = s_hmin i1) /\ (s_sethmax (m_info m) = true -> s_hmax i2 = s_hmax i1) /\
      (ok = false -> s_sethmin (m_info m) = true /\ s_sethmax (m_info m) = true /\ (s_hmax (m_info m) < s_hmin (m_info m))%Q) /\
      (ok = true -> Qltb 0 (s_hsiz (m_info m) * dd) || s_optim (m_info m) = false -> has_np met = false ->
        (s_hmin i2 <= s_hmax i2)%Q /\
        (s_sethmin (m_info m) = false -> s_sethmax (m_info m) = false -> s_hmin i2 = HMINCOE /\ s_hmax i2 = HMAXCOE) /\
        (s_sethmin (m_info m) = false -> s_sethmax (m_info m) = true -> s_hmin i2 = mg_min HMINCOE (HMINCOE * s_hmax i2)%Q) /\
        (s_sethmin (m_info m) = true -> s_sethmax (m_info m) = false -> s_hmax i2 = mg_max HMAXCOE ((1 / HMINCOE) * s_hmin i2)%Q))).
  { destruct (negb (Qltb 0 (s_hsiz (m_info m) * dd) || s_optim (m_info m)) && negb (has_np met)) eqn:Bd.
    - destruct (default_ok i1 (s_sethmin (m_info m)) (s_sethmax (m_info m))) as (ok & i2 & E2 & W & K1 & K2 & K3 & K4 & K5 & K6 & K7).
      + intros X. unfold i1. cbn [s_hmin with_h]. rewrite X. apply Qmult_le_0_compat; [auto|lra].
      + intros X. unfold i1. cbn [s_hmax with_h]. rewrite X. apply Qmult_le_0_compat; [auto|lra].
      + exists ok, i2. split; [exact E2|]. split; [exact W|]. split; [exact K1|]. split; [exact K2|].
        split.
        { intros Hf. apply K7 in Hf. destruct (Qltb_spec (s_hmax i2) (s_hmin i2)) as [[_ H]|[X H]]; [|congruence].
          destruct (s_sethmin (m_info m)) eqn:X, (s_sethmax (m_info m)) eqn:Y.
          - split; [reflexivity|]. split; [reflexivity|]. rewrite (K1 eq_refl), (K2 eq_refl) in H. unfold i1 in H.
            cbn [s_hmin s_hmax with_h] in H. rewrite ?X, ?Y in H. clear - H Pdd. nra.
          - exfalso. rewrite (K6 eq_refl eq_refl), (K1 eq_refl) in H. unfold i1 in H. cbn [s_hmin with_h] in H. rewrite ?X in H.
            specialize (Pmin eq_refl). revert H. apply Qle_not_lt.
            destruct (mg_max_spec HMAXCOE ((1 / HMINCOE) * (s_hmin (m_info m) * dd))) as (_ & M & _).
            eapply Qle_trans; [|exact M]. assert (E1000 : (1 / HMINCOE == 1000)%Q) by reflexivity. rewrite E1000. clear - Pmin Pdd. nra.
          - exfalso. rewrite (K5 eq_refl eq_refl), (K2 eq_refl) in H. unfold i1 in H. cbn [s_hmax with_h] in H. rewrite ?Y in H.
            specialize (Pmax eq_refl). revert H. apply Qle_not_lt.
            destruct (mg_min_spec HMINCOE (HMINCOE * (s_hmax (m_info m) * dd))) as (_ & M & _).
            eapply Qle_trans; [exact M|]. unfold HMINCOE. clear - Pmax Pdd. nra.
          - exfalso. destruct (K4 eq_refl eq_refl) as [A1 A2]. rewrite A1, A2 in H. discriminate H. }
        intros Hok _ _. split; [auto|]. split; [exact K4|]. split.
        * intros X Y. rewrite (K2 Y). auto.
        * intros X Y. rewrite (K1 X). auto.
    - exists true, i1. split; [reflexivity|]. split; [reflexivity|]. split; [reflexivity|]. split; [reflexivity|].
      split; [discriminate|]. intros _ X Y. rewrite X, Y in Bd. discriminate. }
  destruct Hd as (ok & i2 & -> & W & K1 & K2 & Kf & K3). cbn [bind]. destruct ok; cbn [negb].
  2:{ eexists false, _, _, _. split; [reflexivity|]. split; [discriminate|]. intros _. right. right. right. apply Kf. reflexivity. }
  set (m2 := with_info (mkSm (m_dim m) (m_np m) (m_base m) pt' i0) i2).
  assert (Rp : pts_rel m m2 dd).
  { unfold pts_rel, m2. cbn [m_dim m_np m_pt with_info m_info]. rewrite W. cbn [s_min s_delta with_h i1 i0].
    split; [reflexivity|]. split; [reflexivity|]. clear - Gf Gc L L' Dp. repeat split; auto; try congruence; try (apply Gf); try (apply Gc; assumption). }
  assert (Ri : info_rel (m_info m) (m_info m2) dd).
  { unfold info_rel, m2. cbn [m_info with_info].
    split; [rewrite W; reflexivity|]. split; [rewrite W; reflexivity|]. split; [rewrite W; reflexivity|].
    split; [rewrite W; reflexivity|]. split; [rewrite W; reflexivity|]. split; [rewrite W; reflexivity|].
    split; intros X; [rewrite (K1 X)|rewrite (K2 X)]; unfold i1; cbn [s_hmin s_hmax with_h]; now rewrite X. }
  assert (Rest : m_base m2 = m_base m /\ (forall j, sflag (aget (m_pt m2) j) = sflag (aget (m_pt m) j)) /\
      (forall k i, valid m k -> 0 <= i < m_dim m ->
         (s_min (m_info m2) i <= sc (aget (m_pt m) k) i <= s_max (m_info m2) i)%Q) /\
      true = true /\ tight m m2 /\
      (Qltb 0 (s_hsiz (m_info m2)) || s_optim (m_info m) = false -> has_np met = false ->
         (s_hmin (m_info m2) <= s_hmax (m_info m2))%Q /\
         (s_sethmin (m_info m) = false -> s_sethmax (m_info m) = false ->
            s_hmin (m_info m2) = HMINCOE /\ s_hmax (m_info m2) = HMAXCOE) /\
         (s_sethmin (m_info m) = false -> s_sethmax (m_info m) = true ->
            s_hmin (m_info m2) = mg_min HMINCOE (HMINCOE * s_hmax (m_info m2))%Q) /\
         (s_sethmin (m_info m) = true -> s_sethmax (m_info m) = false ->
            s_hmax (m_info m2) = mg_max HMAXCOE ((1 / HMINCOE) * s_hmin (m_info m2))%Q))).
  { split; [reflexivity|]. split; [intros j; apply Gf|]. split; [|split; [reflexivity|split]].
    - intros k i Hk Hi. unfold m2. cbn [m_info with_info]. rewrite W. cbn [s_min s_max with_h i1 i0]. now apply B.
    - intros [k0 Hk0] HD. unfold m2. cbn [m_pt with_info].
      assert (T : forall i, 0 <= i < m_dim m -> (exists k, valid m k /\ (mn i == sc (aget (m_pt m) k) i)%Q) /\
                 (exists k, valid m k /\ (mx i == sc (aget (m_pt m) k) i)%Q)).
      { intros i Hi. destruct (D3 i Hi) as [N|T]; [intros k Hk; now apply HD|exfalso; eauto|exact T]. }
      split.
      + intros i Hi. destruct (T i Hi) as [(k & Hk & Ek) _]. exists k. split; [exact Hk|].
        destruct (Gc k i Hk Hi) as [-> _]. rewrite Ek. clear. ring.
      + destruct D2 as [D2|(i & Hi & D2)]; [exfalso; clear - D2 Dp; lra|].
        destruct (T i Hi) as [_ (k & Hk & Ek)]. exists i, k. split; [exact Hi|]. split; [exact Hk|].
        destruct (Gc k i Hk Hi) as [-> _]. rewrite <- Ek. rewrite <- Ddd, D2. clear. ring.
    - unfold m2. cbn [m_info with_info]. replace (s_hsiz i2) with (s_hsiz (m_info m) * dd)%Q by (rewrite W; reflexivity).
      apply K3. reflexivity. }
  change (with_info (with_info (with_pt (with_info (with_pt m pt) (with_box (m_info m) mn mx d)) pt') i0) i2) with m2.
  clearbody m2.
  destruct sol as [s|].
  - destruct Hsol as (Ht & Hp & Hm). destruct (Z.eqb_spec (l_np s) 0) as [E0|N0].
    + eexists true, _, _, _. split; [reflexivity|]. split; [|discriminate]. intros _. split; [exact Rp|]. split; [exact Ri|].
      split; [|exact Rest]. cbn. repeat split; auto. destruct (l_m s); auto. repeat split; auto. intros X; contradiction.
    + destruct (l_m s) as [a|] eqn:Em; [|contradiction].
      change (m_np m2) with (m_np m2). replace (m_np m2) with (m_np m) by (symmetry; apply Rp).
      assert (Hs1 : 1 <= l_size s) by (clear - Ht Fdim; destruct Ht as [[_ ->]|[_ ->]]; destruct Fdim; lia).
      destruct (sol_loop (l_size s) (m_np m) dd a) as (a' & Ea & La & Ga); [exact Hs1|clear - Fnp; lia|exact Hm|].
      rewrite Ea. cbn [bind]. eexists true, _, _, _. split; [reflexivity|]. split; [|discriminate]. intros _.
      split; [exact Rp|]. split; [exact Ri|]. split; [|exact Rest].
      cbn. rewrite Em. repeat split; auto. contradiction.
  - eexists true, _, _, _. split; [reflexivity|]. split; [|discriminate]. intros _. split; [exact Rp|]. split; [exact Ri|]. split; [exact I|exact Rest].
Qed.

(** ** Truncation and scaling of a scalar metric *)

Definition used (m : smesh) (k : Z) : Prop := valid m k /\ m_base m <= sflag (aget (m_pt m) k).

(** What the bounds satisfy after the truncation, in terms of the sizes [v] at the
    vertices taken into account. *)
Definition bounds_rel (i : sinfo) (hmin hmax : Q) (U : Z -> Prop) (v : Z -> Q) : Prop :=
  (s_sethmin i = true -> hmin = s_hmin i) /\ (s_sethmax i = true -> hmax = s_hmax i) /\
  ((forall k, U k -> (0 < v k)%Q) ->
     (forall k, U k -> s_sethmin i = false -> (hmin <= v k)%Q) /\
     (forall k, U k -> s_sethmax i = false -> (v k <= hmax)%Q) /\
     ((exists k, U k) ->
      (s_sethmin i = true -> (0 < s_hmin i)%Q) -> (s_sethmax i = true -> (0 < s_hmax i)%Q) ->
      (s_sethmin i = true -> s_sethmax i = true -> (s_hmin i <= s_hmax i)%Q) ->
      (0 < hmin)%Q /\ (hmin <= hmax)%Q)).

Lemma FLT_pos : (0 < FLT_MAX)%Q. Proof. reflexivity. Qed.

Lemma minmax_spec m a :
  fits m -> m_np m < alen a ->
  exists lo hi, for_range 1 (m_np m) (trunc_minmax m a) (FLT_MAX, 0%Q) = Ret (lo, hi) /\
    (0 <= hi)%Q /\
    (forall k, used m k -> (lo <= aget a k)%Q /\ (aget a k <= hi)%Q) /\
    ((forall k, used m k -> (0 < aget a k)%Q) -> (0 < lo)%Q).
Proof.
  intros [Fnp Fdim] La.
  destruct (@for_range_inv _ (fun n s => let '(lo, hi) := s in
      (0 <= hi)%Q /\ (forall k, used m k -> k < n -> (lo <= aget a k)%Q /\ (aget a k <= hi)%Q) /\
      ((forall k, used m k -> (0 < aget a k)%Q) -> (0 < lo)%Q))
     (trunc_minmax m a) 1 (m_np m) (FLT_MAX, 0%Q)) as ([lo hi] & E & I1 & I2 & I3); [lia| | |].
  - split; [lra|]. split; [|intros _; apply FLT_pos]. intros k [[Hk _] _] Hlt. lia.
  - intros k [lo hi] Hk (I1 & I2 & I3). unfold trunc_minmax. rewrite rd_ok by lia. cbn [bind].
    destruct (vok (aget (m_pt m) k)) eqn:V; cbn [negb orb].
    + destruct (Z.ltb_spec (sflag (aget (m_pt m) k)) (m_base m)) as [Hf|Hf].
      * eexists. split; [reflexivity|]. split; [exact I1|]. split; [|exact I3].
        intros j Hj Hlt. apply I2; [exact Hj|]. destruct (Z.eq_dec j k) as [->|]; [destruct Hj as [_ Hj]; lia|lia].
      * rewrite rd_ok by lia. cbn [bind]. eexists. split; [reflexivity|].
        destruct (mg_min_spec lo (aget a k)) as (M1 & M2 & M3). destruct (mg_max_spec hi (aget a k)) as (X1 & X2 & X3).
        split; [lra|]. split.
        -- intros j Hj Hlt. destruct (Z.eq_dec j k) as [->|Nj]; [split; [exact M2|exact X2]|].
           destruct (I2 j Hj ltac:(lia)). split; lra.
        -- intros Hp. destruct M3 as [->| ->]; [auto|]. apply Hp. split; [split; [lia|exact V]|exact Hf].
    + eexists. split; [reflexivity|]. split; [exact I1|]. split; [|exact I3].
      intros j Hj Hlt. apply I2; [exact Hj|]. destruct (Z.eq_dec j k) as [->|]; [destruct Hj as [[_ Hj] _]; congruence|lia].
  - exists lo, hi. split; [exact E|]. split; [exact I1|]. split; [|exact I3].
    intros k Hk. apply I2; [exact Hk|]. destruct Hk as [[Hk _] _]. lia.
Qed.

Lemma check_with_h i a b : exists lo hi, check_hminhmax (with_h i a b) = with_h i lo hi.
Proof.
  unfold check_hminhmax. destruct i as [a1 a2 a3 a4 a5 a6 a7 a8 [] [] a11 a12 a13 a14 a15]; cbn [with_h s_sethmin s_sethmax]; unfold with_h; cbn; eauto.
Qed.

Lemma trunc_spec m a :
  fits m -> m_np m < alen a -> check_setted_hminhmax (m_info m) = true ->
  exists hmin hmax a', solTruncature_iso m a = Ret (true, with_info m (with_h (m_info m) hmin hmax), a') /\
    alen a' = alen a /\ bounds_rel (m_info m) hmin hmax (used m) (aget a) /\
    forall k, 1 <= k <= m_np m -> aget a' k =
      if sflag (aget (m_pt m) k) <? m_base m then hmax else mg_min hmax (mg_max hmin (aget a k)).
Proof.
  intros F La Cs. destruct (check_setted_pos _ Cs) as [Pmin Pmax].
  unfold solTruncature_iso. rewrite Cs. cbn [negb].
  assert (Hmm : exists lo hi, (if negb (s_sethmin (m_info m)) || negb (s_sethmax (m_info m))
      then for_range 1 (m_np m) (trunc_minmax m a) (FLT_MAX, 0%Q) else Ret (FLT_MAX, 0%Q)) = Ret (lo, hi) /\
      (0 <= hi)%Q /\
      (s_sethmin (m_info m) = false \/ s_sethmax (m_info m) = false ->
        (forall k, used m k -> (lo <= aget a k)%Q /\ (aget a k <= hi)%Q) /\
        ((forall k, used m k -> (0 < aget a k)%Q) -> (0 < lo)%Q))).
  { destruct (negb (s_sethmin (m_info m)) || negb (s_sethmax (m_info m))) eqn:B.
    - destruct (minmax_spec m a F La) as (lo & hi & E & I1 & I2 & I3). exists lo, hi. auto.
    - exists FLT_MAX, 0%Q. split; [reflexivity|]. split; [lra|].
      destruct (s_sethmin (m_info m)), (s_sethmax (m_info m)); try discriminate. intros [X|X]; discriminate. }
  destruct Hmm as (lo & hi & -> & Hhi & Hmm). cbn [bind].
  set (i1 := with_h (m_info m) (if s_sethmin (m_info m) then s_hmin (m_info m) else lo)
                               (if s_sethmax (m_info m) then s_hmax (m_info m) else hi)).
  set (i2 := check_hminhmax i1).
  assert (W : i2 = with_h (m_info m) (s_hmin i2) (s_hmax i2)).
  { destruct (check_with_h (m_info m) (if s_sethmin (m_info m) then s_hmin (m_info m) else lo)
                               (if s_sethmax (m_info m) then s_hmax (m_info m) else hi)) as (x & y & Hw).
    unfold i2, i1. rewrite Hw. reflexivity. }
  assert (Bd : bounds_rel (m_info m) (s_hmin i2) (s_hmax i2) (used m) (aget a)).
  { unfold bounds_rel, i2, check_hminhmax, i1. 
    destruct (s_sethmin (m_info m)) eqn:S1, (s_sethmax (m_info m)) eqn:S2; cbn [with_h s_sethmin s_sethmax s_hmin s_hmax];
      rewrite ?S1, ?S2; cbn [with_h s_sethmin s_sethmax s_hmin s_hmax]; rewrite ?S1, ?S2; cbn [with_h s_hmin s_hmax].
    - split; [reflexivity|]. split; [reflexivity|]. intros Hp. split; [discriminate|]. split; [discriminate|]. auto.
    - destruct (Hmm (or_intror eq_refl)) as [H1 H2]. specialize (Pmin eq_refl).
      destruct (Qltb_spec (hi * 10) (s_hmin (m_info m))) as [[-> H]|[-> H]];
        (split; [reflexivity|]); (split; [discriminate|]); intros Hp; (split; [discriminate|]); (split; [intros k Hk _; destruct (H1 k Hk); lra|]);
        intros [k Hk] A _ _; specialize (A eq_refl); lra.
    - destruct (Hmm (or_introl eq_refl)) as [H1 H2]. specialize (Pmax eq_refl).
      destruct (Qltb_spec (s_hmax (m_info m)) (lo * (1 # 10))) as [[-> H]|[-> H]];
        (split; [discriminate|]); (split; [reflexivity|]); intros Hp; specialize (H2 Hp);
        (split; [intros k Hk _; destruct (H1 k Hk); lra|]); (split; [discriminate|]);
        intros [k Hk] _ A _; specialize (A eq_refl); lra.
    - destruct (Hmm (or_introl eq_refl)) as [H1 H2].
      split; [discriminate|]. split; [discriminate|]. intros Hp. specialize (H2 Hp).
      destruct (Qltb_spec hi (lo * (1 # 10))) as [[-> H]|[-> H]]; cbn [s_hmin s_hmax with_h];
        match goal with |- context [Qltb ?x ?y] => destruct (Qltb_spec x y) as [[-> H']|[-> H']] end;
        (split; [intros k Hk _; destruct (H1 k Hk); lra|]); (split; [intros k Hk _; destruct (H1 k Hk); lra|]);
        intros [k Hk] _ _ _; destruct (H1 k Hk); pose proof (Hp k Hk); lra. }
  destruct F as [Fnp Fdim].
  destruct (@map_range _ (trunc_step (with_info m i2))
     (fun k v => if sflag (aget (m_pt m) k) <? m_base m then s_hmax i2 else mg_min (s_hmax i2) (mg_max (s_hmin i2) v))
     1 (m_np m) a) as (a' & E & L & G); [lia| |].
  { intros k a1 Hk La1 Ga1. unfold trunc_step. cbn [m_pt m_base m_info with_info]. rewrite rd_ok by lia. cbn [bind].
    destruct (sflag (aget (m_pt m) k) <? m_base m).
    - rewrite wr_ok by lia. eexists. split; [reflexivity|]. split; [reflexivity|]. cbn [aget]. split; [now rewrite upd_same|].
      intros j Hj. now rewrite upd_other.
    - rewrite rd_ok by lia. cbn [bind]. rewrite wr_ok by lia. eexists. split; [reflexivity|]. split; [reflexivity|].
      cbn [aget]. split; [rewrite upd_same; now rewrite Ga1|]. intros j Hj. now rewrite upd_other. }
  exists (s_hmin i2), (s_hmax i2), a'. cbn [m_np with_info]. rewrite E. cbn [bind].
  split; [rewrite <- W; reflexivity|]. split; [exact L|]. split; [exact Bd|].
  intros k Hk. rewrite G. destruct (Z.leb_spec 1 k), (Z.leb_spec k (m_np m)); cbn [andb]; try lia. reflexivity.
Qed.

Definition same_pts (m m' : smesh) : Prop :=
  m_dim m' = m_dim m /\ m_np m' = m_np m /\ alen (m_pt m') = alen (m_pt m) /\
  forall j, vok (aget (m_pt m') j) = vok (aget (m_pt m) j) /\ sc (aget (m_pt m') j) = sc (aget (m_pt m) j).

Lemma scalar_spec warn m a dd :
  fits m -> m_np m < alen a ->
  (forall k, 1 <= k <= m_np m -> sflag (aget (m_pt m) k) <= m_base m) ->
  exists ok warn' m' a', scale_scalarMetric warn m a dd = Ret (ok, warn', m', a') /\
    same_pts m m' /\ (warn = true -> warn' = true) /\
    (ok = true ->
      (warn = false -> forall k, valid m k -> (0 < aget a k)%Q) /\
      exists hmin hmax, m_info m' = with_h (m_info m) hmin hmax /\ alen a' = alen a /\
        bounds_rel (m_info m) hmin hmax (valid m) (fun k => (aget a k * dd)%Q) /\
        (forall k, valid m k -> aget a' k = mg_min hmax (mg_max hmin (aget a k * dd)%Q)) /\
        (forall k, 1 <= k <= m_np m -> ~ valid m k -> aget a' k = hmax)) /\
    (ok = false -> check_setted_hminhmax (m_info m) = false \/ exists k, valid m k /\ (aget a k <= 0)%Q).
Proof.
  intros F La Hf. unfold scale_scalarMetric. set (base := m_base m + 1). cbn [m_np m_pt].
  assert (Ha : for_range 1 (m_np m) (fun k (_ : unit) => p <- rd (m_pt m) k ;; c_assert (sflag p <? base)) tt = Ret tt).
  { destruct (@for_range_inv _ (fun _ _ => True) (fun k (_ : unit) => p <- rd (m_pt m) k ;; c_assert (sflag p <? base)) 1 (m_np m) tt)
      as ([] & E & _); [destruct F; lia|exact I| |exact E].
    intros k [] Hk _. exists tt. split; [|exact I]. destruct F. rewrite rd_ok by lia. cbn [bind]. specialize (Hf k Hk).
    destruct (Z.ltb_spec (sflag (aget (m_pt m) k)) base); [reflexivity|lia]. }
  rewrite Ha. cbn [bind].
  destruct F as [Fnp Fdim].
  destruct (@for_range_inv _ (fun n s => let '(stop, w, pt, b) := s in
      alen pt = alen (m_pt m) /\ alen b = alen a /\ (warn = true -> w = true) /\
      (forall j, vok (aget pt j) = vok (aget (m_pt m) j) /\ sc (aget pt j) = sc (aget (m_pt m) j)) /\
      (stop = false ->
        (forall k, n <= k -> aget b k = aget a k /\ aget pt k = aget (m_pt m) k) /\
        (forall k, 1 <= k < n -> vok (aget (m_pt m) k) = true -> sflag (aget pt k) = base /\ aget b k = (aget a k * dd)%Q /\ (warn = false -> (0 < aget a k)%Q)) /\
        (forall k, 1 <= k < n -> vok (aget (m_pt m) k) = false -> aget pt k = aget (m_pt m) k)) /\
      (stop = false -> w = warn) /\
      (stop = true -> exists k, valid m k /\ (aget a k <= 0)%Q))
     (scalar_step base dd) 1 (m_np m) (false, warn, m_pt m, a)) as ([[[stop w] pt] b] & E & L1 & L2 & Hw & Hp & Hs & Hw2 & Hst); [lia| | |].
  - repeat split; auto; try discriminate; intros; lia.
  - intros k [[[stop w] pt] b] Hk (L1 & L2 & Hw & Hp & Hs & Hw2 & Hst). unfold scalar_step. destruct stop.
    { eexists. split; [reflexivity|]. split; [exact L1|]. split; [exact L2|]. split; [exact Hw|]. split; [exact Hp|]. split; [discriminate|]. split; [discriminate|exact Hst]. }
    destruct (Hs eq_refl) as (S1 & S2 & S3). specialize (Hw2 eq_refl). subst w.
    rewrite rd_ok by lia. cbn [bind]. destruct (S1 k ltac:(lia)) as [Sb Sp]. rewrite Sp.
    destruct (vok (aget (m_pt m) k)) eqn:V; cbn [negb].
    + rewrite wr_ok by lia. cbn [bind]. rewrite rd_ok by lia. cbn [bind]. rewrite Sb.
      assert (Hp' : forall j, vok (upd (aget pt) k (mkSpt true (sc (aget (m_pt m) k)) base (stmp (aget (m_pt m) k))) j) = vok (aget (m_pt m) j) /\
         sc (upd (aget pt) k (mkSpt true (sc (aget (m_pt m) k)) base (stmp (aget (m_pt m) k))) j) = sc (aget (m_pt m) j)).
      { intros j. destruct (Z.eq_dec j k) as [->|Nj]; [rewrite upd_same; cbn; auto|rewrite upd_other by exact Nj; auto]. }
      destruct (Qle_bool (aget a k) 0) eqn:Q0; destruct warn; cbn [negb andb].
      2:{ eexists. split; [reflexivity|]. split; [exact L1|]. split; [exact L2|]. split; [auto|]. split; [exact Hp'|]. split; [discriminate|]. split; [discriminate|]. intros _. exists k. split; [split; [lia|exact V]|now apply Qle_bool_iff]. }
      all: rewrite wr_ok by lia; cbn [bind]; eexists; (split; [reflexivity|]); cbn [alen aget];
        (split; [exact L1|]); (split; [exact L2|]); (split; [exact Hw|]); (split; [exact Hp'|]); (split; [|split; [reflexivity|discriminate]]); intros _;
        (split; [intros j Hj; rewrite !upd_other by lia; apply S1; lia|]);
        (split; [|intros j Hj Vj; destruct (Z.eq_dec j k) as [->|Nj]; [congruence|rewrite upd_other by exact Nj; apply S3; [lia|exact Vj]]]);
        intros j Hj Vj; (destruct (Z.eq_dec j k) as [->|Nj];
          [rewrite !upd_same; cbn [sflag]; split; [reflexivity|]; split; [reflexivity|]; intros Hf';
           first [discriminate | apply Qnot_le_lt; intros X; apply Qle_bool_iff in X; congruence]
          |rewrite !upd_other by exact Nj; apply S2; [lia|exact Vj]]).
    + eexists. split; [reflexivity|]. split; [exact L1|]. split; [exact L2|]. split; [exact Hw|]. split; [exact Hp|]. split; [|split; [reflexivity|discriminate]]. intros _.
      split; [intros j Hj; apply S1; lia|]. split.
      * intros j Hj Vj. destruct (Z.eq_dec j k) as [->|Nj]; [congruence|apply S2; [lia|exact Vj]].
      * intros j Hj Vj. destruct (Z.eq_dec j k) as [->|Nj]; [exact Sp|apply S3; [lia|exact Vj]].
  - rewrite E. cbn [bind]. 
    set (m1 := with_pt (mkSm (m_dim m) (m_np m) base (m_pt m) (m_info m)) pt).
    assert (Sm1 : same_pts m m1) by (unfold same_pts, m1; cbn; auto).
    destruct stop.
    { exists false, w, m1, b. split; [reflexivity|]. split; [exact Sm1|]. split; [exact Hw|]. split; [discriminate|]. intros _. right. now apply Hst. }
    destruct (Hs eq_refl) as (_ & S2 & S3). specialize (Hw2 eq_refl). subst w. clear Hs.
    destruct (check_setted_hminhmax (m_info m1)) eqn:Cs.
    + destruct (trunc_spec m1 b) as (hmin & hmax & b' & E1 & L3 & Bd & Hv); [split; cbn; [lia|exact Fdim]|cbn; lia|exact Cs|].
      rewrite E1. cbn [bind]. exists true, warn, (with_info m1 (with_h (m_info m1) hmin hmax)), b'.
      split; [reflexivity|]. split; [unfold same_pts, m1; cbn; auto|]. split; [auto|]. split; [|discriminate]. intros _.
      assert (Uv : forall k, used m1 k <-> valid m k).
      { intros k. unfold used, valid, m1. cbn [m_np m_pt m_base with_pt]. split.
        - intros [[Hk V] _]. split; [exact Hk|]. now rewrite <- (proj1 (Hp k)).
        - intros [Hk V]. split; [split; [exact Hk|rewrite (proj1 (Hp k)); exact V]|]. destruct (S2 k ltac:(lia) V) as [-> _]. lia. }
      assert (Vb : forall k, valid m k -> aget b k = (aget a k * dd)%Q).
      { intros k [Hk V]. apply S2; [lia|exact V]. }
      split; [intros Hw0 k [Hk V]; apply S2; [lia|exact V|exact Hw0]|].
      exists hmin, hmax. split; [reflexivity|]. split; [congruence|]. split; [|split].
      * destruct Bd as (B1 & B2 & B3). split; [exact B1|]. split; [exact B2|]. intros Hpos.
        destruct B3 as (B3 & B4 & B5).
        { intros k Hk. apply Uv in Hk. rewrite Vb by exact Hk. apply Hpos. exact Hk. }
        split; [intros k Hk Hs; rewrite <- Vb by exact Hk; apply B3; [now apply Uv|exact Hs]|].
        split; [intros k Hk Hs; rewrite <- Vb by exact Hk; apply B4; [now apply Uv|exact Hs]|].
        intros [k Hk]. apply B5. exists k. now apply Uv.
      * intros k Hk. rewrite Hv by (unfold m1; cbn; apply Hk). rewrite Vb by exact Hk.
        pose proof Hk as Hk2. apply Uv in Hk2. destruct Hk2 as [_ Hk2].
        destruct (Z.ltb_spec (sflag (aget (m_pt m1) k)) (m_base m1)); [lia|reflexivity].
      * intros k Hk Hn. rewrite Hv by (unfold m1; cbn; exact Hk).
        assert (V : vok (aget (m_pt m) k) = false) by (destruct (vok (aget (m_pt m) k)) eqn:V; [exfalso; apply Hn; split; auto|reflexivity]).
        unfold m1. cbn [m_pt m_base with_pt]. rewrite (S3 k ltac:(lia) V). specialize (Hf k Hk).
        destruct (Z.ltb_spec (sflag (aget (m_pt m) k)) base); [reflexivity|lia].
    + unfold solTruncature_iso. rewrite Cs. cbn [negb bind].
      exists false, warn, m1, b. split; [reflexivity|]. split; [exact Sm1|]. split; [auto|]. split; [discriminate|]. intros _. left. exact Cs.
Qed.

(** ** Tensors *)

Lemma tensor_spec m size a dd :
  fits m -> 1 <= size -> size * (m_np m + 1) <= alen a ->
  exists pt a', for_range 1 (m_np m) (tensor_step size (m_base m + 1) dd) (m_pt m, a) = Ret (pt, a') /\
    alen pt = alen (m_pt m) /\
    (forall j, vok (aget pt j) = vok (aget (m_pt m) j) /\ sc (aget pt j) = sc (aget (m_pt m) j)) /\
    alen a' = alen a /\
    forall j, aget a' j = if owned (m_pt m) (m_np m) size j then (aget a j * dd)%Q else aget a j.
Proof.
  intros [Fnp Fdim] Hs La.
  destruct (@for_range_inv _ (fun n s => let '(pt, b) := s in
      alen pt = alen (m_pt m) /\ alen b = alen a /\
      (forall j, vok (aget pt j) = vok (aget (m_pt m) j) /\ sc (aget pt j) = sc (aget (m_pt m) j)) /\
      forall j, aget b j = if owned (m_pt m) (n - 1) size j then (aget a j * dd)%Q else aget a j)
     (tensor_step size (m_base m + 1) dd) 1 (m_np m) (m_pt m, a)) as ([pt b] & E & L1 & L2 & Hp & G); [lia| | |].
  - repeat split; auto. intros j. unfold owned.
    destruct (Z.leb_spec 1 (j / size)), (Z.leb_spec (j / size) (1 - 1)); cbn [andb]; try reflexivity; lia.
  - intros k [pt b] Hk (L1 & L2 & Hp & G). unfold tensor_step. rewrite rd_ok by lia. cbn [bind].
    rewrite (proj1 (Hp k)). destruct (vok (aget (m_pt m) k)) eqn:V; cbn [negb].
    + rewrite wr_ok by lia. cbn [bind].
      destruct (inner_vals size k dd b) as (b' & E & L' & G'); [lia|lia|rewrite L2; nia|].
      rewrite E. cbn [bind]. eexists. split; [reflexivity|]. cbn [alen aget]. split; [exact L1|]. split; [congruence|]. split.
      * intros j. destruct (Z.eq_dec j k) as [->|Nj]; [rewrite upd_same; cbn; rewrite V; split; [reflexivity|apply Hp]|rewrite upd_other by exact Nj; apply Hp].
      * intros j. rewrite G', block_bool by lia. rewrite G.
        unfold owned. destruct (Z.eqb_spec (j / size) k) as [->|Nk].
        -- destruct (Z.leb_spec 1 k), (Z.leb_spec k (k - 1)), (Z.leb_spec k (k + 1 - 1)); cbn [andb]; try lia. now rewrite V.
        -- replace (j / size <=? k + 1 - 1) with (j / size <=? k - 1); [reflexivity|].
           destruct (Z.leb_spec (j / size) (k - 1)), (Z.leb_spec (j / size) (k + 1 - 1)); lia.
    + eexists. split; [reflexivity|]. split; [exact L1|]. split; [exact L2|]. split; [exact Hp|]. intros j. rewrite G. unfold owned.
      destruct (Z.eq_dec (j / size) k) as [->|Nk].
      * rewrite V, !andb_false_r. reflexivity.
      * replace (j / size <=? k + 1 - 1) with (j / size <=? k - 1); [reflexivity|].
        destruct (Z.leb_spec (j / size) (k - 1)), (Z.leb_spec (j / size) (k + 1 - 1)); lia.
  - exists pt, b. split; [exact E|]. split; [exact L1|]. split; [exact Hp|]. split; [exact L2|]. intros j. rewrite G.
    replace (m_np m + 1 - 1) with (m_np m) by lia. reflexivity.
Qed.

(** ** The whole of the scaling *)

(** What is assumed of the truncation of tensors (MMG5_2dSolTruncature_ani,
    MMG5_3dSolTruncature_ani, scalem.c:366-545): it writes the metric and the bounds
    that the user has not set. *)
Definition trunc_frame (trunc : smesh -> arr Q -> bool * smesh * arr Q) : Prop :=
  forall m a, let '(ok, m', a') := trunc m a in
    same_pts m m' /\ alen a' = alen a /\
    exists hmin hmax, m_info m' = with_h (m_info m) hmin hmax /\
      (s_sethmin (m_info m) = true -> hmin = s_hmin (m_info m)) /\
      (s_sethmax (m_info m) = true -> hmax = s_hmax (m_info m)).

(** Marks of a mesh that has been set by the API: none is beyond [mesh->base]. *)
Definition marks (m : smesh) : Prop := forall k, 1 <= k <= m_np m -> sflag (aget (m_pt m) k) <= m_base m.

Definition met_rel (trunc : smesh -> arr Q -> bool * smesh * arr Q) (warn : bool) (m m' : smesh) (s s' : option ssol) (dd : Q) : Prop :=
  match s, s' with
  | None, None => True
  | Some s, Some s' => l_np s' = l_np s /\ l_size s' = l_size s /\ l_type s' = l_type s /\
      match l_m s, l_m s' with
      | None, None => True
      | Some a, Some a' => alen a' = alen a /\
          (l_np s = 0 -> a' = a) /\
          (l_np s <> 0 -> l_type s = 1 ->
             (warn = false -> forall k, valid m k -> (0 < aget a k)%Q) /\
             (exists i, s_sethmin i = s_sethmin (m_info m) /\ s_sethmax i = s_sethmax (m_info m) /\
                (s_sethmin i = true -> s_hmin i = s_hmin (m_info m) * dd)%Q /\
                (s_sethmax i = true -> s_hmax i = s_hmax (m_info m) * dd)%Q /\
                bounds_rel i (s_hmin (m_info m')) (s_hmax (m_info m')) (valid m) (fun k => (aget a k * dd)%Q)) /\
             (forall k, valid m k -> aget a' k = mg_min (s_hmax (m_info m')) (mg_max (s_hmin (m_info m')) (aget a k * dd)%Q)) /\
             (forall k, 1 <= k <= m_np m -> ~ valid m k -> aget a' k = s_hmax (m_info m'))) /\
          (l_np s <> 0 -> l_type s = 3 ->
             exists mt at_, m' = snd (fst (trunc mt at_)) /\ a' = snd (trunc mt at_) /\
               forall j, aget at_ j = if owned (m_pt m) (m_np m) (l_size s) j then (aget a j * (1 / (dd * dd)))%Q else aget a j)
      | _, _ => False
      end
  | _, _ => False
  end.

Lemma same_valid m m' k : m_np m' = m_np m -> (forall j, vok (aget (m_pt m') j) = vok (aget (m_pt m) j)) -> valid m' k <-> valid m k.
Proof. intros E1 E2. unfold valid. now rewrite E1, E2. Qed.

Lemma pts_rel_same m m1 m2 dd hmin hmax :
  pts_rel m m1 dd -> same_pts m1 m2 -> m_info m2 = with_h (m_info m1) hmin hmax -> pts_rel m m2 dd.
Proof.
  intros (R1 & R2 & R3 & R4 & R5 & R6 & R7) (S1 & S2 & S3 & S4) I. unfold pts_rel. rewrite I. cbn [s_min s_delta with_h].
  split; [congruence|]. split; [congruence|]. split; [congruence|].
  split; [intros j; rewrite (proj1 (S4 j)); apply R4|]. split; [|split; [exact R6|exact R7]].
  intros k i Hk Hi. rewrite (proj2 (S4 k)). apply R5; assumption.
Qed.

Lemma owned_ext pt pt' np size j :
  (forall k, vok (aget pt' k) = vok (aget pt k)) -> owned pt' np size j = owned pt np size j.
Proof. intros H. unfold owned. now rewrite H. Qed.

Lemma tight_same m m1 m2 : tight m m1 -> same_pts m1 m2 -> tight m m2.
Proof.
  intros T (S1 & S2 & S3 & S4) Ex HD. destruct (T Ex HD) as [T1 (i & k & Hi & Hk & Ek)]. split.
  - intros j Hj. destruct (T1 j Hj) as (k' & Hk' & Ek'). exists k'. split; [exact Hk'|]. now rewrite (proj2 (S4 k')).
  - exists i, k. split; [exact Hi|]. split; [exact Hk|]. now rewrite (proj2 (S4 k)).
Qed.

Lemma scale_spec warn trunc m met sol :
  fits m -> plain_ok m met sol -> marks m -> trunc_frame trunc ->
  exists r, scaleMesh warn trunc m met sol = Ret r /\
    (r_ok r = true -> exists dd,
      pts_rel m (r_mesh r) dd /\ info_rel (m_info m) (m_info (r_mesh r)) dd /\ sol_rel m sol (r_sol r) dd /\
      met_rel trunc warn m (r_mesh r) met (r_met r) dd /\
      check_setted_hminhmax (m_info m) = true /\
      tight m (r_mesh r) /\
      (Qltb 0 (s_hsiz (m_info (r_mesh r))) || s_optim (m_info m) = false -> has_np met = false ->
         (s_hmin (m_info (r_mesh r)) <= s_hmax (m_info (r_mesh r)))%Q /\
         (s_sethmin (m_info m) = false -> s_sethmax (m_info m) = false ->
            s_hmin (m_info (r_mesh r)) = HMINCOE /\ s_hmax (m_info (r_mesh r)) = HMAXCOE) /\
         (s_sethmin (m_info m) = false -> s_sethmax (m_info m) = true ->
            s_hmin (m_info (r_mesh r)) = mg_min HMINCOE (HMINCOE * s_hmax (m_info (r_mesh r)))%Q) /\
         (s_sethmin (m_info m) = true -> s_sethmax (m_info m) = false ->
            s_hmax (m_info (r_mesh r)) = mg_max HMAXCOE ((1 / HMINCOE) * s_hmin (m_info (r_mesh r)))%Q))) /\
    (r_ok r = false -> refusal m \/
       exists s a, met = Some s /\ l_m s = Some a /\ (l_type s = 3 \/ exists k, valid m k /\ (aget a k <= 0)%Q)).
Proof.
  intros F P Mk Tf. destruct (ms_spec m met sol F P) as (ok & m1 & sol1 & dd & E & Hok & Hfail).
  unfold scaleMesh. rewrite E. cbn [bind]. destruct ok; cbn [negb].
  2:{ eexists. split; [reflexivity|]. cbn [r_ok]. split; [discriminate|]. intros _. left. now apply Hfail. }
  clear E Hfail. destruct (Hok eq_refl) as (Rp & Ri & Rs & Rb & Rf & _ & Rc & Rt & Rd). clear Hok.
  destruct P as [_ Pm].
  destruct met as [s|].
  2:{ eexists. split; [reflexivity|]. cbn [r_ok r_mesh r_sol r_met]. split; [|discriminate]. intros _. exists dd.
      repeat (split; [first [assumption|exact I]|]). exact Rd. }
  destruct Pm as [Ht Hm].
  destruct (l_m s) as [a|] eqn:Em.
  2:{ eexists. split; [reflexivity|]. cbn [r_ok r_mesh r_sol r_met]. split; [|discriminate]. intros _. exists dd.
      split; [exact Rp|]. split; [exact Ri|]. split; [exact Rs|]. split; [|split; [exact Rc|split; [exact Rt|exact Rd]]].
      unfold met_rel. rewrite Em. auto. }
  destruct (Z.eqb_spec (l_np s) 0) as [E0|N0].
  { eexists. split; [reflexivity|]. cbn [r_ok r_mesh r_sol r_met]. split; [|discriminate]. intros _. exists dd.
    split; [exact Rp|]. split; [exact Ri|]. split; [exact Rs|]. split; [|split; [exact Rc|split; [exact Rt|exact Rd]]].
    unfold met_rel. rewrite Em. split; [reflexivity|]. split; [reflexivity|]. split; [reflexivity|]. split; [reflexivity|].
    split; [auto|]. split; intros X; contradiction. }
  assert (Hnp : has_np (Some s) = true) by (cbn; destruct (Z.eqb_spec (l_np s) 0); [contradiction|reflexivity]).
  assert (F1 : fits m1).
  { destruct Rp as (R1 & R2 & R3 & _). destruct F. split; [rewrite R2, R3; assumption|rewrite R1; assumption]. }
  assert (V1 : forall k, valid m1 k <-> valid m k).
  { intros k. destruct Rp as (R1 & R2 & R3 & R4 & _). now apply same_valid. }
  destruct Ri as (I1 & I2 & I3 & I4 & I5 & I6 & I7 & I8).
  destruct Ht as [[Ht Hs]|[Ht Hs]].
  - (* scalar *)
    rewrite Hs. cbn [Z.eqb]. change (1 =? 1) with true. cbn match.
    destruct (scalar_spec warn m1 a dd) as (ok & w & m2 & a2 & E & S & _ & Hk & Hn).
    { exact F1. } { destruct Rp as (_ & -> & _). rewrite Hs in Hm. clear - Hm. lia. }
    { intros k Hk. destruct Rp as (_ & R2 & _). rewrite R2 in Hk. rewrite Rf, Rb. now apply Mk. }
    rewrite E. cbn [bind]. eexists. split; [reflexivity|]. cbn [r_ok r_mesh r_sol r_met].
    destruct ok.
    2:{ split; [discriminate|]. intros _. destruct (Hn eq_refl) as [Cs|(k & Hk' & Ha)].
        - left. right. destruct (check_setted_neg _ Cs) as [[A B]|[A B]].
          + left. rewrite I5 in A. split; [exact A|]. rewrite (I7 A) in B.
            assert (Pd : (0 < dd)%Q). { destruct Rp as (_ & _ & _ & _ & _ & -> & D). apply Qlt_shift_div_l; [exact D|lra]. }
            clear - B Pd. nra.
          + right. left. rewrite I6 in A. split; [exact A|]. rewrite (I8 A) in B.
            assert (Pd : (0 < dd)%Q). { destruct Rp as (_ & _ & _ & _ & _ & -> & D). apply Qlt_shift_div_l; [exact D|lra]. }
            clear - B Pd. nra.
        - right. exists s, a. split; [reflexivity|]. split; [exact Em|]. right. exists k. split; [now apply V1|exact Ha]. }
    split; [|discriminate]. intros _. destruct (Hk eq_refl) as (Hpos & hmin & hmax & I & L & Bd & Hv & Hv'). clear Hk Hn E.
    exists dd. split; [eapply pts_rel_same; eassumption|].
    split. { unfold info_rel. rewrite I. cbn [with_h s_hausd s_ls s_hsiz s_par s_sethmin s_sethmax s_hmin s_hmax].
      destruct Bd as (B1 & B2 & _).
      repeat (split; [assumption|]). split; intros X; [rewrite B1 by congruence; auto|rewrite B2 by congruence; auto]. }
    split; [exact Rs|].
    split.
    2:{ split; [exact Rc|]. split; [eapply tight_same; eassumption|]. rewrite Hnp. discriminate. }
    unfold met_rel. rewrite Em. cbn [l_np l_size l_type l_m]. split; [reflexivity|]. split; [congruence|]. split; [reflexivity|].
    split; [exact L|]. split; [intros X; contradiction|]. split; [|intros _ X; rewrite Ht in X; discriminate].
    intros _ _. split; [intros Hw k Hk; apply Hpos; [exact Hw|now apply V1]|]. rewrite I. cbn [with_h s_hmin s_hmax].
    split; [|split].
    + exists (m_info m1). do 4 (split; [first [assumption|now rewrite I5|now rewrite I6|intros X; first [rewrite I5 in X|rewrite I6 in X]; auto]|]).
      destruct Bd as (B1 & B2 & B3). split; [exact B1|]. split; [exact B2|]. intros Hp.
      destruct B3 as (B3 & B4 & B5); [intros k Hk; apply Hp; now apply V1|].
      split; [intros k Hk; apply B3; now apply V1|]. split; [intros k Hk; apply B4; now apply V1|].
      intros [k Hk]. apply B5. exists k. now apply V1.
    + intros k Hk. apply Hv. now apply V1.
    + intros k Hk Nk. apply Hv'; [destruct Rp as (_ & -> & _); exact Hk|]. intros X. apply Nk. now apply V1.
  - (* tensor *)
    assert (Hs1 : (l_size s =? 1) = false) by (destruct F as [_ [Fd|Fd]]; rewrite Hs, Fd; reflexivity).
    rewrite Hs1. replace (l_size s =? (m_dim m1 - 1) * 3) with true.
    2:{ symmetry. apply Z.eqb_eq. destruct Rp as (-> & _). lia. }
    unfold scale_tensorMetric. cbn [m_np m_pt].
    destruct (tensor_spec m1 (l_size s) a (1 / (dd * dd))) as (pt & a2 & E & L1 & Hp & L2 & Hv).
    { exact F1. } { destruct F as [_ [Fd|Fd]]; rewrite Hs, Fd; lia. } { destruct Rp as (_ & -> & _). exact Hm. }
    rewrite E. cbn [bind].
    set (mt := with_pt (mkSm (m_dim m1) (m_np m1) (m_base m1 + 1) (m_pt m1) (m_info m1)) pt).
    pose proof (Tf mt a2) as T. destruct (trunc mt a2) as [[ok m2] a3] eqn:Et. cbn [bind].
    eexists. split; [reflexivity|]. cbn [r_ok r_mesh r_sol r_met]. split.
    2:{ intros _. right. exists s, a. auto. }
    destruct T as (S & L3 & hmin & hmax & I & K1 & K2). intros _.
    assert (S' : same_pts m1 m2).
    { destruct S as (A1 & A2 & A3 & A4). cbn [mt m_dim m_np m_pt with_pt] in *. split; [exact A1|]. split; [exact A2|].
      split; [congruence|]. intros j. destruct (A4 j), (Hp j). split; congruence. }
    exists dd. split; [eapply pts_rel_same; [exact Rp|exact S'|exact I]|].
    cbn [mt m_info with_pt] in *.
    split. { unfold info_rel. rewrite I. cbn [with_h s_hausd s_ls s_hsiz s_par s_sethmin s_sethmax s_hmin s_hmax].
      repeat (split; [assumption|]). split; intros X; [rewrite K1 by congruence; auto|rewrite K2 by congruence; auto]. }
    split; [exact Rs|].
    split.
    2:{ split; [exact Rc|]. split; [eapply tight_same; eassumption|]. rewrite Hnp. discriminate. }
    unfold met_rel. rewrite Em. cbn [l_np l_size l_type l_m]. split; [reflexivity|]. split; [reflexivity|]. split; [reflexivity|].
    split; [congruence|]. split; [intros X; contradiction|]. split; [intros _ X; rewrite Ht in X; discriminate|].
    intros _ _. exists mt, a2. rewrite Et. cbn [fst snd]. split; [reflexivity|]. split; [reflexivity|].
    intros j. rewrite Hv. destruct Rp as (_ & R2 & _ & R4 & _). rewrite R2, (owned_ext _ _ _ _ _ R4). reflexivity.
Qed.

(** ** Unscaling *)

Definition vals_rel (s s' : option ssol) (f : Z -> Q -> Q) : Prop :=
  match s, s' with
  | None, None => True
  | Some s, Some s' => l_np s' = l_np s /\ l_size s' = l_size s /\ l_type s' = l_type s /\
      match l_m s, l_m s' with
      | None, None => True
      | Some a, Some a' => alen a' = alen a /\ (l_np s = 0 -> a' = a) /\ (l_np s <> 0 -> forall j, aget a' j = f j (aget a j))
      | _, _ => False
      end
  | _, _ => False
  end.

Definition osize (s : option ssol) : Z := match s with Some s => l_size s | None => 1 end.
Definition otype (s : option ssol) : Z := match s with Some s => l_type s | None => 1 end.

(** The arrays fit the mesh. *)
Definition sizes_ok (m : smesh) (met sol : option ssol) : Prop :=
  match sol with
  | None => True
  | Some s => (l_type s = 1 /\ l_size s = 1 \/ l_type s = 2 /\ l_size s = m_dim m) /\
              match l_m s with None => l_np s = 0 | Some a => l_size s * (m_np m + 1) <= alen a end
  end /\
  match met with
  | None => True
  | Some s => (l_type s = 1 /\ l_size s = 1 \/ l_type s = 3 /\ l_size s = 3 * (m_dim m - 1)) /\
              match l_m s with None => l_np s = 0 | Some a => l_size s * (m_np m + 1) <= alen a end
  end.

Lemma unscale_spec m met sol :
  fits m -> sizes_ok m met sol -> osize sol <> 3 ->
  exists m' met' sol', unscaleMesh m met sol = Ret (m', met', sol') /\
    m_dim m' = m_dim m /\ m_np m' = m_np m /\ alen (m_pt m') = alen (m_pt m) /\
    (forall j, vok (aget (m_pt m') j) = vok (aget (m_pt m) j)) /\
    (forall k i, valid m k -> 0 <= i < m_dim m ->
       sc (aget (m_pt m') k) i = (sc (aget (m_pt m) k) i * s_delta (m_info m) + s_min (m_info m) i)%Q) /\
    s_hausd (m_info m') = (s_hausd (m_info m) * s_delta (m_info m))%Q /\
    s_ls (m_info m') = (s_ls (m_info m) * s_delta (m_info m))%Q /\
    s_hsiz (m_info m') = (s_hsiz (m_info m) * s_delta (m_info m))%Q /\
    s_par (m_info m') = map (scale_par (s_delta (m_info m))) (s_par (m_info m)) /\
    s_sethmin (m_info m') = s_sethmin (m_info m) /\ s_sethmax (m_info m') = s_sethmax (m_info m) /\
    s_hmin (m_info m') = (if s_sethmin (m_info m) then s_hmin (m_info m) * s_delta (m_info m) else NONSET)%Q /\
    s_hmax (m_info m') = (if s_sethmax (m_info m) then s_hmax (m_info m) * s_delta (m_info m) else NONSET)%Q /\
    s_delta (m_info m') = 1%Q /\ (forall i, 0 <= i < 3 -> s_min (m_info m') i = 0%Q) /\
    vals_rel sol sol' (fun j v => if owned (m_pt m) (m_np m) (osize sol) j then (v * s_delta (m_info m))%Q else v) /\
    vals_rel met met' (fun j v => if owned (m_pt m) (m_np m) (osize met) j
       then (v * (if otype met =? 1 then s_delta (m_info m) else 1 / (s_delta (m_info m) * s_delta (m_info m))))%Q else v).
Proof.
  intros F [Hsol Hmet] H3. unfold unscaleMesh. set (dd := s_delta (m_info m)).
  destruct F as [Fnp Fdim].
  destruct (@map_range _ (denorm_step (m_dim m) dd (s_min (m_info m)))
     (fun k p => if vok p then mkSpt (vok p) (coords (m_dim m) (fun i x => (x * dd + s_min (m_info m) i)%Q) (sc p)) (sflag p) (stmp p) else p)
     1 (m_np m) (m_pt m)) as (pt & E & L & G); [lia| |].
  { intros k a' Hk La' Ga'. unfold denorm_step. rewrite rd_ok by lia. cbn [bind]. rewrite Ga'.
    destruct (vok (aget (m_pt m) k)) eqn:V; cbn [negb].
    - rewrite wr_ok by lia. eexists. split; [reflexivity|]. split; [reflexivity|]. cbn [aget]. split; [now rewrite upd_same|].
      intros j Hj. now rewrite upd_other.
    - eexists. split; [reflexivity|]. auto. }
  rewrite E. cbn [bind].
  assert (Gv : forall j, vok (aget pt j) = vok (aget (m_pt m) j)).
  { intros j. rewrite G. destruct ((1 <=? j) && (j <=? m_np m)); [|reflexivity]. destruct (vok (aget (m_pt m) j)) eqn:V; [reflexivity|exact V]. }
  assert (Gc : forall k i, valid m k -> 0 <= i < m_dim m -> sc (aget pt k) i = (sc (aget (m_pt m) k) i * dd + s_min (m_info m) i)%Q).
  { intros k i [Hk V] Hi. rewrite G, V.
    replace ((1 <=? k) && (k <=? m_np m)) with true by (destruct (Z.leb_spec 1 k), (Z.leb_spec k (m_np m)); cbn; lia).
    cbn [sc]. now rewrite coords_in. }
  set (sres := match sol with Some s => _ | None => _ end).
  assert (Hs : exists sol', sres = Ret sol' /\
     vals_rel sol sol' (fun j v => if owned (m_pt m) (m_np m) (osize sol) j then (v * dd)%Q else v)).
  { unfold sres. destruct sol as [s|]; [|exists None; split; [reflexivity|exact I]].
    destruct Hsol as (Ht & Hm). destruct (l_m s) as [a|] eqn:Em.
    2:{ exists (Some s). split; [reflexivity|]. unfold vals_rel. rewrite Em. auto. }
    destruct (Z.eqb_spec (l_np s) 0) as [E0|N0].
    { exists (Some s). split; [reflexivity|]. unfold vals_rel. rewrite Em. repeat split; auto. intros X; contradiction. }
    cbn [osize] in H3. destruct (Z.eqb_spec (l_size s) 3); [contradiction|]. cbn [negb c_assert bind].
    destruct (vals_spec pt (m_np m) (l_size s) dd a) as (a' & Ea & La & Ga).
    { destruct Ht as [[_ ->]|[_ ->]]; destruct Fdim; lia. } { lia. } { exact Hm. }
    rewrite Ea. cbn [bind]. eexists. split; [reflexivity|]. unfold vals_rel. rewrite Em. cbn [l_np l_size l_type l_m osize].
    repeat split; auto; [contradiction|]. intros _ j. rewrite Ga, (owned_ext (m_pt m) pt) by exact Gv. reflexivity. }
  destruct Hs as (sol' & -> & Hs). cbn [bind].
  set (mres := match met with Some s => _ | None => _ end).
  assert (Hm : exists met', mres = Ret met' /\
     vals_rel met met' (fun j v => if owned (m_pt m) (m_np m) (osize met) j
       then (v * (if otype met =? 1 then dd else 1 / (dd * dd)))%Q else v)).
  { unfold mres. clear mres Hs. cbn [m_np with_info with_pt]. destruct met as [s|]; [|exists None; split; [reflexivity|exact I]].
    destruct Hmet as (Ht & Hm). destruct (l_m s) as [a|] eqn:Em.
    2:{ exists (Some s). split; [reflexivity|]. unfold vals_rel. rewrite Em. auto. }
    destruct (Z.eqb_spec (l_np s) 0) as [E0|N0].
    { exists (Some s). split; [reflexivity|]. unfold vals_rel. rewrite Em. repeat split; auto. intros X; contradiction. }
    cbn [otype osize]. destruct Ht as [[Ht Hz]|[Ht Hz]]; rewrite Ht.
    - change (1 =? 1) with true. cbn match.
      destruct (vals_spec pt (m_np m) 1 dd a) as (a' & Ea & La & Ga); [lia|lia|rewrite Hz in Hm; exact Hm|].
      rewrite Ea. cbn [bind]. eexists. split; [reflexivity|]. unfold vals_rel. rewrite Em. cbn [l_np l_size l_type l_m].
      repeat split; auto; [contradiction|]. intros _ j. rewrite Ga, (owned_ext (m_pt m) pt) by exact Gv. rewrite Hz. reflexivity.
    - change (3 =? 1) with false. change (3 =? 3) with true. cbn match.
      destruct (vals_spec pt (m_np m) (l_size s) (1 / (dd * dd)) a) as (a' & Ea & La & Ga).
      { rewrite Hz. destruct Fdim; lia. } { lia. } { exact Hm. }
      rewrite Ea. cbn [bind]. eexists. split; [reflexivity|]. unfold vals_rel. rewrite Em. cbn [l_np l_size l_type l_m].
      repeat split; auto; [contradiction|]. intros _ j. rewrite Ga, (owned_ext (m_pt m) pt) by exact Gv. reflexivity. }
  destruct Hm as (met' & -> & Hm). cbn [bind].
  eexists _, met', sol'. split; [reflexivity|].
  cbn [m_dim m_np m_pt m_info with_info with_pt s_hausd s_ls s_hsiz s_par s_sethmin s_sethmax s_hmin s_hmax s_delta s_min].
  split; [reflexivity|]. split; [reflexivity|]. split; [exact L|]. split; [exact Gv|]. split; [exact Gc|].
  do 9 (split; [reflexivity|]). split.
  { intros i Hi. destruct (Z.leb_spec 0 i), (Z.ltb_spec i 3); cbn [andb]; try lia. reflexivity. }
  split; [exact Hs|exact Hm].
Qed.
