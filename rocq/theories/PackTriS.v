(** The first pass of [MMGS_packMesh] over the triangles: they are packed, their
    neighbours renumbered and the special edges counted
    (/repo/src/mmgs/libmmgs.c:114-167).

    The adjacency table is an array of rows of three.  The new numbers of the
    vertices (lines 122-124) are given in the second pass only (EdgesS.v): a packed vertex
    carries its own number. *)
From Coq Require Import ZArith List Bool Lia.
From Verif Require Import CBase SurfModel Tria2 EdgesS.
Import ListNotations.
Open Scope Z_scope.

(** A triangle: vertices, reference, references and marks of the edges. *)
Record ptri : Type := mkPT { q_v : Z -> Z; q_ref : Z; q_er : Z -> Z; q_tg : Z -> Z }.
(** [MG_EOK], mmgcommon_private.h. *)
Definition q_ok (t : ptri) : bool := 0 <? q_v t 0.

(** libmmgs.c:130-141. *)
Definition move_adj (k nbl : Z) (adj : arr (Z -> Z)) : outcome (arr (Z -> Z)) :=
  for_range 0 2 (fun i adj =>
    a <- rd adj k ;;
    n <- rd adj nbl ;;
    adj <- wr adj nbl (upd n i (a i)) ;;
    if a i =? 0 then Ret adj
    else
      r <- rd adj (Z.quot (a i) 3) ;;
      wr adj (Z.quot (a i) 3) (upd r (Z.rem (a i) 3) (3 * nbl + i))) adj.

(** libmmgs.c:146-165, with the assert of line 152. *)
Definition count_edges (tr : arr ptri) (adj : arr (Z -> Z)) (k na : Z) : outcome Z :=
  for_range 0 2 (fun i na =>
    t <- rd tr k ;;
    if negb (edg (q_tg t i)) then Ret na
    else
      a <- rd adj k ;;
      let jel := Z.quot (a i) 3 in
      if jel =? k then Stuck
      else if jel =? 0 then Ret (na + 1)
      else
        tj <- rd tr jel ;;
        Ret (if q_ref tj <? q_ref t then na else if (q_ref tj =? q_ref t) && (k <? jel) then na else na + 1)) na.

(** Triangles, neighbours, next place, edges. *)
Record pstate : Type := mkP { p_tr : arr ptri; p_adj : arr (Z -> Z); p_nbl : Z; p_na : Z }.

(** libmmgs.c:114-168; the number of triangles is [p_nbl - 1] at the end. *)
Definition pack_tri (nt : Z) (tr : arr ptri) (adj : arr (Z -> Z)) : outcome pstate :=
  for_range 1 nt (fun k s =>
    t <- rd (p_tr s) k ;;
    if negb (q_ok t) then Ret s
    else
      s' <- (if k =? p_nbl s then Ret s
             else
               tr <- wr (p_tr s) (p_nbl s) t ;;
               adj <- move_adj k (p_nbl s) (p_adj s) ;;
               Ret (mkP tr adj (p_nbl s) (p_na s))) ;;
      na <- count_edges (p_tr s') (p_adj s') k (p_na s') ;;
      Ret (mkP (p_tr s') (p_adj s') (p_nbl s' + 1) na)) (mkP tr adj 1 0).

(** ** Correctness *)

Section Pack.
Variables (nt : Z) (tr : arr ptri) (adj : arr (Z -> Z)).
Definition usd (k : Z) : bool := q_ok (aget tr k).
Fixpoint nu (n : nat) : Z := match n with O => 0 | S m => nu m + if usd (Z.of_nat (S m)) then 1 else 0 end.
(** New number of the triangle [k]. *)
Definition num (k : Z) : Z := nu (Z.to_nat k).

Lemma num_S k : 1 <= k -> num k = num (k - 1) + if usd k then 1 else 0.
Proof.
  clear. intros H. unfold num. replace (Z.to_nat k) with (S (Z.to_nat (k - 1))) by lia. cbn [nu].
  replace (Z.of_nat (S (Z.to_nat (k - 1)))) with k by lia. reflexivity.
Qed.
Lemma num_le k : 0 <= k -> 0 <= num k <= k.
Proof.
  clear. intros H. replace k with (Z.of_nat (Z.to_nat k)) by lia. induction (Z.to_nat k) as [|q IH]; [cbn; lia|].
  rewrite num_S by lia. replace (Z.of_nat (S q) - 1) with (Z.of_nat q) by lia. destruct (usd (Z.of_nat (S q))); lia.
Qed.
Lemma num_mono k l : 0 <= k <= l -> num k <= num l.
Proof.
  clear. intros H. replace l with (k + Z.of_nat (Z.to_nat (l - k))) by lia. induction (Z.to_nat (l - k)) as [|q IH].
  - rewrite Z.add_0_r. lia.
  - rewrite (num_S (k + Z.of_nat (S q))) by lia. replace (k + Z.of_nat (S q) - 1) with (k + Z.of_nat q) by lia. destruct (usd (k + Z.of_nat (S q))); lia.
Qed.
Lemma num_lt k l : 0 <= k < l -> usd l = true -> num k < num l.
Proof. clear. intros H U. rewrite (num_S l), U by lia. pose proof (num_mono k (l - 1) ltac:(lia)). lia. Qed.

Hypothesis Hnt : 0 <= nt.
Hypothesis Lt : nt < alen tr.
Hypothesis La : nt < alen adj.
Definition side (k i : Z) : Prop := 1 <= k <= nt /\ usd k = true /\ 0 <= i < 3.
Hypothesis Ha : forall k i, side k i -> aget adj k i = 0 \/
  exists l j, side l j /\ l <> k /\ aget adj k i = 3 * l + j /\ aget adj l j = 3 * k + i.

(** Where the triangle [l] is when [k] is next, and what its neighbours' entries are. *)
Definition loc (k l : Z) : Z := if l <? k then num l else l.
Definition ent (k x : Z) : Z := if x =? 0 then 0 else 3 * loc k (Z.quot x 3) + Z.rem x 3.

Lemma q3 l j : 0 <= l -> 0 <= j < 3 -> Z.quot (3 * l + j) 3 = l /\ Z.rem (3 * l + j) 3 = j.
Proof.
  clear. intros A B. rewrite Z.quot_div_nonneg, Z.rem_mod_nonneg by lia. replace (3 * l + j) with (j + l * 3) by lia.
  rewrite Z.div_add, Z.div_small, Z.mod_add, Z.mod_small by lia. lia.
Qed.
Lemma ent_m k l j : 1 <= l -> 0 <= j < 3 -> ent k (3 * l + j) = 3 * loc k l + j.
Proof. clear. intros A B. unfold ent. destruct (Z.eqb_spec (3 * l + j) 0); [lia|]. destruct (q3 l j) as [-> ->]; lia. Qed.
Lemma loc_b k l : 1 <= l -> usd l = true -> 1 <= loc k l <= l.
Proof.
  clear. intros A U. unfold loc. pose proof (num_le l ltac:(lia)). pose proof (num_lt 0 l ltac:(lia) U) as P. change (num 0) with 0 in P.
  destruct (l <? k); lia.
Qed.
Lemma loc_inj k l m : 1 <= l -> 1 <= m -> usd l = true -> usd m = true -> loc k l = loc k m -> l = m.
Proof.
  clear. intros A B U V. unfold loc. pose proof (num_le l ltac:(lia)). pose proof (num_le m ltac:(lia)).
  destruct (Z.ltb_spec l k), (Z.ltb_spec m k); try lia. intros E.
  destruct (Z.lt_total l m) as [X|[X|X]]; [|exact X|]; [pose proof (num_lt l m ltac:(lia) V) | pose proof (num_lt m l ltac:(lia) U)]; lia.
Qed.
Lemma loc_other k l : l <> k -> loc (k + 1) l = loc k l.
Proof. clear. intros N. unfold loc. destruct (Z.ltb_spec l (k + 1)), (Z.ltb_spec l k); lia. Qed.
Lemma loc_same k : loc k k = k /\ loc (k + 1) k = num k.
Proof. clear. unfold loc. destruct (Z.ltb_spec k k), (Z.ltb_spec k (k + 1)); lia. Qed.
Lemma ent_own k i : side k i -> ent (k + 1) (aget adj k i) = ent k (aget adj k i).
Proof.
  intros S. destruct (Ha k i S) as [E|(l & j & (L1 & L2 & L3) & N & E & _)]; rewrite E; [reflexivity|].
  rewrite !ent_m, loc_other by lia. reflexivity.
Qed.

(** The rows while the triangle [k] moves: [i] entries are done. *)
Definition mid (k i : Z) (b : arr (Z -> Z)) : Prop :=
  alen b = alen adj /\
  (forall i', 0 <= i' < 3 -> aget b k i' = ent k (aget adj k i')) /\
  (forall i', 0 <= i' < i -> aget b (num k) i' = ent k (aget adj k i')) /\
  (forall m i', side m i' -> m <> k ->
     aget b (loc k m) i' = if (Z.quot (aget adj m i') 3 =? k) && (Z.rem (aget adj m i') 3 <? i)
                           then ent (k + 1) (aget adj m i') else ent k (aget adj m i')).

Lemma away k m : 1 <= k -> 1 <= m -> usd k = true -> usd m = true -> m <> k -> num k < k -> loc k m <> k /\ loc k m <> num k.
Proof.
  clear. intros K M U V N L. unfold loc. pose proof (num_le m ltac:(lia)). destruct (Z.ltb_spec m k).
  - pose proof (num_lt m k ltac:(lia) U). lia.
  - lia.
Qed.

Lemma move_ok k b : 1 <= k <= nt -> usd k = true -> num k < k -> mid k 0 b -> exists b', move_adj k (num k) b = Ret b' /\ mid k 3 b'.
Proof.
  intros K U L I. unfold move_adj. pose proof (num_lt 0 k ltac:(lia) U) as N0. change (num 0) with 0 in N0.
  match goal with |- exists _, for_range 0 2 ?f b = _ /\ _ => destruct (@for_range_inv (arr (Z -> Z)) (mid k) f 0 2 b) as (b' & E & J) end.
  - lia.
  - exact I.
  - intros i c Hi (A & B & C & D). rewrite rd_ok by lia. cbn [bind]. rewrite rd_ok by lia. cbn [bind]. rewrite wr_ok by lia. cbn [bind].
    rewrite (B i) by lia. assert (Sk : side k i) by (split; [lia | split; [exact U | lia]]).
    destruct (Ha k i Sk) as [E|(l & j & (L1 & L2 & L3) & N & E & E')].
    + rewrite E. cbn [ent Z.eqb]. eexists. split; [reflexivity|]. split; [exact A|]. cbn [aget]. split; [|split].
      * intros i' X. rewrite upd_other by lia. apply B. exact X.
      * intros i' X. rewrite upd_same. destruct (Z.eq_dec i' i) as [-> |Y]; [rewrite upd_same, E; reflexivity|].
        rewrite upd_other by lia. apply C. lia.
      * intros m i' Sm Nm. destruct Sm as (M1 & M2 & M3). destruct (away k m) as [W1 W2]; try lia; auto.
        rewrite upd_other by lia. rewrite (D m i') by (unfold side; auto).
        destruct (Ha m i' (conj M1 (conj M2 M3))) as [F|(l & j & (P1 & P2 & P3) & Q & F & F')]; rewrite F; [change (Z.quot 0 3) with 0; destruct (Z.eqb_spec 0 k); [lia | reflexivity]|].
        destruct (q3 l j) as [-> ->]; try lia. destruct (Z.eqb_spec l k); [|reflexivity]. subst l. cbn [andb].
        destruct (Z.eq_dec j i) as [-> |Y]; [lia|]. destruct (Z.ltb_spec j i), (Z.ltb_spec j (i + 1)); try lia; reflexivity.
    + rewrite E, ent_m by lia. pose proof (loc_b k l ltac:(lia) L2) as LB. destruct (away k l) as [W1 W2]; try lia; auto.
      destruct (Z.eqb_spec (3 * loc k l + j) 0); [lia|]. destruct (q3 (loc k l) j) as [-> ->]; try lia.
      rewrite rd_ok by (cbn [alen]; lia). cbn [bind]. rewrite wr_ok by (cbn [alen]; lia). eexists. split; [reflexivity|].
      split; [exact A|]. cbn [aget]. split; [|split].
      * intros i' X. rewrite !upd_other by lia. apply B. exact X.
      * intros i' X. rewrite upd_other by lia. rewrite upd_same. destruct (Z.eq_dec i' i) as [-> |Y]; [rewrite upd_same, E, ent_m by lia; reflexivity|].
        rewrite upd_other by lia. apply C. lia.
      * intros m i' Sm Nm. destruct Sm as (M1 & M2 & M3). destruct (away k m) as [X1 X2]; try lia; auto.
        pose proof (D m i' (conj M1 (conj M2 M3)) Nm) as Dm.
        destruct (Z.eq_dec m l) as [-> |Nl].
        -- rewrite upd_same. destruct (Z.eq_dec i' j) as [-> |Nj].
           ++ rewrite upd_same, E'. destruct (q3 k i) as [-> ->]; try lia. rewrite Z.eqb_refl. destruct (Z.ltb_spec i (i + 1)); [|lia].
              cbn [andb]. rewrite ent_m by lia. destruct (loc_same k) as [_ ->]. reflexivity.
           ++ rewrite upd_other by lia. rewrite upd_other by lia. rewrite Dm.
              destruct (Ha l i' (conj M1 (conj M2 M3))) as [F|(l2 & j2 & (P1 & P2 & P3) & Q & F & F')]; rewrite F; [change (Z.quot 0 3) with 0; destruct (Z.eqb_spec 0 k); [lia | reflexivity]|].
              destruct (q3 l2 j2) as [-> ->]; try lia. destruct (Z.eqb_spec l2 k); [|reflexivity]. subst l2. cbn [andb].
              destruct (Z.eq_dec j2 i) as [-> |Y]; [lia|]. destruct (Z.ltb_spec j2 i), (Z.ltb_spec j2 (i + 1)); try lia; reflexivity.
        -- rewrite upd_other by (intros X; apply Nl; apply (loc_inj k); auto; lia). rewrite upd_other by lia. rewrite Dm.
           destruct (Ha m i' (conj M1 (conj M2 M3))) as [F|(l2 & j2 & (P1 & P2 & P3) & Q & F & F')]; rewrite F; [change (Z.quot 0 3) with 0; destruct (Z.eqb_spec 0 k); [lia | reflexivity]|].
           destruct (q3 l2 j2) as [-> ->]; try lia. destruct (Z.eqb_spec l2 k); [|reflexivity]. subst l2. cbn [andb].
           destruct (Z.eq_dec j2 i) as [-> |Y]; [lia|]. destruct (Z.ltb_spec j2 i), (Z.ltb_spec j2 (i + 1)); try lia; reflexivity.
  - exists b'. split; [exact E | exact J].
Qed.

(** The side from which an edge is taken, with the old numbers. *)
Definition ofh (k i : Z) : bool :=
  edg (q_tg (aget tr k) i) &&
  (let jel := Z.quot (aget adj k i) 3 in
   (jel =? 0) || negb ((q_ref (aget tr jel) <? q_ref (aget tr k)) || ((q_ref (aget tr jel) =? q_ref (aget tr k)) && (k <? jel)))).
Definition orow (k : Z) : list (Z * Z) := if usd k then filter (fun p => ofh (fst p) (snd p)) [(k, 0); (k, 1); (k, 2)] else [].
Definition orows (n : Z) : list (Z * Z) := flat_map orow (map Z.of_nat (seq 1 (Z.to_nat n))).
Lemma orows_S n : 0 <= n -> orows (n + 1) = orows n ++ orow (n + 1).
Proof.
  clear. intros H. unfold orows. replace (n + 1) with (Z.succ n) by lia. rewrite Z2Nat.inj_succ by lia.
  rewrite seq_S, map_app, flat_map_app. cbn [map flat_map]. rewrite app_nil_r. do 2 f_equal. lia.
Qed.

Definition b1 (b : bool) : Z := if b then 1 else 0.

Lemma count_ok k na t b : 1 <= k <= nt -> usd k = true -> nt < alen t -> nt < alen b ->
  aget t k = aget tr k ->
  (forall m, 1 <= m <= nt -> usd m = true -> m <> k -> aget t (loc k m) = aget tr m) ->
  (forall i, 0 <= i < 3 -> aget b k i = ent k (aget adj k i)) ->
  count_edges t b k na = Ret (na + b1 (ofh k 0) + b1 (ofh k 1) + b1 (ofh k 2)).
Proof.
  intros K U Lt' Lb T T' B. unfold count_edges.
  match goal with |- for_range 0 2 ?f na = _ =>
    destruct (@for_range_inv Z (fun i n => n = na + (if 0 <? i then b1 (ofh k 0) else 0) + (if 1 <? i then b1 (ofh k 1) else 0) + (if 2 <? i then b1 (ofh k 2) else 0)) f 0 2 na) as (n & E & I) end.
  - lia.
  - cbn. lia.
  - intros i n Hi ->. rewrite rd_ok by lia. cbn [bind]. rewrite T.
    assert (Hi3 : 0 <= i < 3) by lia.
    assert (G : forall n, (if negb (edg (q_tg (aget tr k) i)) then Ret n else a <- rd b k ;;
      let jel := Z.quot (a i) 3 in if jel =? k then Stuck else if jel =? 0 then Ret (n + 1) else tj <- rd t jel ;;
      Ret (if q_ref tj <? q_ref (aget tr k) then n else if (q_ref tj =? q_ref (aget tr k)) && (k <? jel) then n else n + 1)) = Ret (n + b1 (ofh k i))).
    { intros n. unfold ofh. destruct (edg (q_tg (aget tr k) i)); [|cbn; f_equal; lia]. cbn [negb andb]. rewrite rd_ok by lia. cbn [bind].
      cbv zeta. rewrite (B i) by lia.
      destruct (Ha k i (conj K (conj U Hi3))) as [F|(l & j & (L1 & L2 & L3) & N & F & _)]; rewrite F.
      - cbn [ent Z.eqb]. change (Z.quot 0 3) with 0. destruct (Z.eqb_spec 0 k); [lia|]. reflexivity.
      - rewrite ent_m by lia. pose proof (loc_b k l ltac:(lia) L2). destruct (q3 (loc k l) j) as [-> _]; try lia. destruct (q3 l j) as [-> _]; try lia.
        assert (X : loc k l <> k /\ (k <? loc k l) = (k <? l)).
        { unfold loc. pose proof (num_le l ltac:(lia)). destruct (Z.ltb_spec l k); [|lia]. destruct (Z.ltb_spec k (num l)), (Z.ltb_spec k l); lia. }
        destruct X as [X ->]. destruct (Z.eqb_spec (loc k l) k); [contradiction|]. destruct (Z.eqb_spec (loc k l) 0); [lia|].
        destruct (Z.eqb_spec l 0); [lia|]. rewrite rd_ok by lia. cbn [bind orb]. rewrite (T' l) by auto.
        destruct (q_ref (aget tr l) <? q_ref (aget tr k)); [cbn; f_equal; lia|]. cbn [orb].
        destruct ((q_ref (aget tr l) =? q_ref (aget tr k)) && (k <? l)); cbn; f_equal; lia. }
    rewrite G. eexists. split; [reflexivity|].
    assert (i = 0 \/ i = 1 \/ i = 2) as [-> | [-> | ->]] by lia; cbn; lia.
  - rewrite E, I. cbn. f_equal. 
Qed.

Definition inv (k : Z) (s : pstate) : Prop :=
  alen (p_tr s) = alen tr /\ alen (p_adj s) = alen adj /\ p_nbl s = num (k - 1) + 1 /\ p_na s = Z.of_nat (length (orows (k - 1))) /\
  (forall m, k <= m <= nt -> aget (p_tr s) m = aget tr m) /\
  (forall m, 1 <= m <= nt -> usd m = true -> aget (p_tr s) (loc k m) = aget tr m) /\
  (forall m i, side m i -> aget (p_adj s) (loc k m) i = ent k (aget adj m i)).

Lemma orow_len k : usd k = true -> Z.of_nat (length (orow k)) = b1 (ofh k 0) + b1 (ofh k 1) + b1 (ofh k 2).
Proof. clear. intros U. unfold orow. rewrite U. cbn. destruct (ofh k 0), (ofh k 1), (ofh k 2); reflexivity. Qed.

Lemma pack_ok : exists s, pack_tri nt tr adj = Ret s /\ inv (nt + 1) s.
Proof.
  unfold pack_tri.
  match goal with |- exists _, for_range 1 nt ?f ?s = _ /\ _ => destruct (@for_range_inv pstate inv f 1 nt s) as (s' & E & I) end.
  - lia.
  - split; [reflexivity|]. split; [reflexivity|]. split; [reflexivity|]. split; [reflexivity|]. split; [reflexivity|].
    assert (X : forall m, 1 <= m -> loc 1 m = m) by (intros m H; unfold loc; destruct (Z.ltb_spec m 1); lia).
    split; [intros m M _; rewrite X by lia; reflexivity|]. intros m i (M & U & Hi). rewrite X by lia. cbn [p_adj].
    destruct (Ha m i (conj M (conj U Hi))) as [F|(l & j & (L1 & L2 & L3) & N & F & _)]; rewrite F; [reflexivity|]. rewrite ent_m, X by lia. reflexivity.
  - intros k s K (A & B & C & D & F & G & H). rewrite rd_ok by lia. cbn [bind]. rewrite (F k) by lia. change (q_ok (aget tr k)) with (usd k).
    pose proof (num_S k ltac:(lia)) as NS. pose proof (orows_S (k - 1) ltac:(lia)) as OS. replace (k - 1 + 1) with k in OS by lia.
    unfold inv. replace (k + 1 - 1) with k by lia.
    destruct (usd k) eqn:U; cbn [negb].
    + assert (C' : p_nbl s = num k) by lia. rewrite C'. pose proof (num_le k ltac:(lia)) as NL.
      assert (M0 : mid k 0 (p_adj s)).
      { split; [exact B|]. split; [|split].
        - intros i Hi. pose proof (H k i (conj K (conj U Hi))) as X. destruct (loc_same k) as [Y _]. rewrite Y in X. exact X.
        - intros; lia.
        - intros m i Sm Nm. rewrite (H m i Sm). destruct (Ha m i Sm) as [E|(l & j & (L1 & L2 & L3) & N & E & _)]; rewrite E.
          + change (Z.rem 0 3) with 0. rewrite Z.ltb_irrefl, andb_false_r. reflexivity.
          + destruct (q3 l j) as [-> ->]; try lia. destruct (Z.ltb_spec j 0); [lia|]. rewrite andb_false_r. reflexivity. }
      destruct (Z.eqb_spec k (num k)) as [Q|Q].
      * cbn [bind]. rewrite (count_ok k (p_na s) (p_tr s) (p_adj s)); try lia; auto.
        2: { apply F. lia. }
        2: { apply M0. }
        cbn [bind]. eexists. split; [reflexivity|]. cbn [p_tr p_adj p_nbl p_na].
        assert (X : forall m, loc (k + 1) m = loc k m).
        { intros m. destruct (Z.eq_dec m k) as [-> |Nm]; [|apply loc_other; exact Nm]. destruct (loc_same k). lia. }
        split; [exact A|]. split; [exact B|]. split; [lia|]. split; [rewrite OS, app_length, Nat2Z.inj_add, orow_len by exact U; lia|].
        split; [intros m M; apply F; lia|]. split; [intros m M V; rewrite X; apply G; auto|].
        intros m i S. rewrite X, (H m i S). unfold ent. rewrite X. reflexivity.
      * pose proof (num_lt 0 k ltac:(lia) U) as N0. change (num 0) with 0 in N0.
        rewrite wr_ok by lia. cbn [bind]. destruct (move_ok k (p_adj s) K U ltac:(lia) M0) as (b & E & J). rewrite E. cbn [bind p_tr p_adj p_nbl p_na].
        destruct J as (J1 & J2 & J3 & J4).
        rewrite (count_ok k (p_na s)); try (cbn [alen]; lia); auto.
        2: { cbn [aget]. rewrite upd_other by lia. apply F. lia. }
        2: { intros m M V Nm. cbn [aget]. destruct (away k m) as [W1 W2]; try lia; auto. rewrite upd_other by lia. apply G; auto. }
        cbn [bind]. eexists. split; [reflexivity|]. cbn [p_tr p_adj p_nbl p_na alen aget].
        split; [exact A|]. split; [exact J1|]. split; [lia|]. split; [rewrite OS, app_length, Nat2Z.inj_add, orow_len by exact U; lia|].
        split; [intros m M; rewrite upd_other by lia; apply F; lia|]. split.
        -- intros m M V. destruct (Z.eq_dec m k) as [-> |Nm].
           ++ destruct (loc_same k) as [_ ->]. rewrite upd_same. reflexivity.
           ++ rewrite loc_other by exact Nm. destruct (away k m) as [W1 W2]; try lia; auto. rewrite upd_other by lia. apply G; auto.
        -- intros m i S. destruct (Z.eq_dec m k) as [-> |Nm].
           ++ rewrite ent_own by exact S. destruct (loc_same k) as [_ ->]. apply J3. destruct S as (_ & _ & S). exact S.
           ++ rewrite loc_other by exact Nm. rewrite (J4 m i S Nm).
              destruct (Ha m i S) as [Y|(l & j & (L1 & L2 & L3) & N & Y & _)]; rewrite Y.
              ** change (ent (k + 1) 0) with 0. change (ent k 0) with 0. destruct ((Z.quot 0 3 =? k) && (Z.rem 0 3 <? 3)); reflexivity.
              ** destruct (q3 l j) as [-> ->]; try lia. destruct (Z.eqb_spec l k) as [-> |Z1].
                 --- destruct (Z.ltb_spec j 3); [|lia]. reflexivity.
                 --- cbn [andb]. rewrite !ent_m, loc_other by lia. reflexivity.
    + eexists. split; [reflexivity|]. unfold orow in OS. rewrite U, app_nil_r in OS.
      split; [exact A|]. split; [exact B|]. split; [lia|]. split; [rewrite OS; exact D|]. split; [intros m M; apply F; lia|].
      split.
      * intros m M V. rewrite loc_other by congruence. apply G; auto.
      * intros m i S. rewrite loc_other by (destruct S as (_ & S & _); congruence). rewrite (H m i S).
        destruct (Ha m i S) as [Y|(l & j & (L1 & L2 & L3) & N & Y & _)]; rewrite Y; [reflexivity|].
        rewrite !ent_m, loc_other by (lia || congruence). reflexivity.
  - exists s'. split; [exact E | exact I].
Qed.

End Pack.
