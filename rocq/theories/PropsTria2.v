(** Properties C65 to C67: the adjacencies of the triangles of Mmg2d, the edges
    given by the user and the edges returned. *)
From Coq Require Import ZArith List Lia Bool Permutation.
From Verif Require Import CBase HashModel HashSpec HashInv HashCorrect SurfModel TriHashProofs Tria2 Tria2Hash Tria2Edges.
Import ListNotations.
Open Scope Z_scope.

(** ** Specification *)

(** Vertices of the edge opposite to the vertex [i]: all vertices but the [i]th. *)
Definition ends (t : tri) (i : Z) : list Z := map (t_v t) (filter (fun j => negb (j =? i)) [0; 1; 2]).

(** Two edges coincide when they have the same vertices. *)
Definition coincide (t : tri) (i : Z) (u : tri) (j : Z) : Prop := Permutation (ends t i) (ends u j).

(** An edge entity has these vertices. *)
Definition names (e : edge) (t : tri) (i : Z) : Prop := Permutation [e_a e; e_b e] (ends t i).

(** What the adjacency table says of the edge [i] of the triangle [k]. *)
Definition entry (adj : arr Z) (k i : Z) : Z := aget adj (3 * (k - 1) + 1 + i).

(** Up to [nt] triangles and holes (first vertex 0), in an array for [ntmax]. *)
Definition mesh2 (nt ntmax : Z) (a : arr tri) : Prop :=
  0 <= nt <= ntmax /\ alen a = ntmax + 1 /\
  forall k, 1 <= k <= nt -> t_v (aget a k) 0 <> 0 -> forall i, 0 <= i < 3 -> 0 < t_v (aget a k) i.

(** [k] is a triangle of the mesh, [i] one of its edges. *)
Definition side (nt : Z) (a : arr tri) (k i : Z) : Prop := 1 <= k <= nt /\ t_v (aget a k) 0 <> 0 /\ 0 <= i < 3.

(** An adjacency table that fits the mesh. *)
Record fits2 (nt : Z) (a : arr tri) (adj : arr Z) : Prop := {
  (* an entry is nil or designates another edge of the mesh, which points back
     and has the same vertices *)
  fit_sym : forall k i, side nt a k i -> entry adj k i = 0 \/
     exists l j, side nt a l j /\ (l, j) <> (k, i) /\ entry adj k i = 3 * l + j /\ entry adj l j = 3 * k + i /\
       coincide (aget a k) i (aget a l) j;
  (* two coinciding edges are not both left without neighbour *)
  fit_max : forall k i l j, side nt a k i -> side nt a l j -> (l, j) <> (k, i) ->
     coincide (aget a k) i (aget a l) j -> entry adj k i = 0 -> entry adj l j <> 0;
  (* holes and absent triangles have no neighbour *)
  fit_out : forall k i, 1 <= k -> 0 <= i < 3 -> ~ side nt a k i -> entry adj k i = 0
}.

(** No edge belongs to three triangles. *)
Definition conforming (nt : Z) (a : arr tri) : Prop :=
  forall k i l j m n, side nt a k i -> side nt a l j -> side nt a m n ->
     coincide (aget a k) i (aget a l) j -> coincide (aget a k) i (aget a m) n ->
     (l, j) = (k, i) \/ (m, n) = (k, i) \/ (l, j) = (m, n).

(** Meaning of the bits of the tags. *)
Definition b_ref (tag : Z) : bool := Z.testbit tag 0.
Definition b_req (tag : Z) : bool := Z.testbit tag 2.
Definition b_bdy (tag : Z) : bool := Z.testbit tag 4.
Definition b_crn (tag : Z) : bool := Z.testbit tag 5.
(** required by Mmg, not by the user *)
Definition b_frozen (tag : Z) : bool := Z.testbit tag 6.

(** The tag [u] is the tag [t] once released: a frozen edge is no more required. *)
Definition released (t u : Z) : Prop :=
  forall n, 0 <= n -> Z.testbit u n = Z.testbit t n && negb (b_frozen t && ((n =? 2) || (n =? 6))).

(** ** Lemmas on ends and bits *)

Lemma perm2 (a b x y : Z) : Permutation [a; b] [x; y] <-> (a = x /\ b = y) \/ (a = y /\ b = x).
Proof.
  split.
  - intros H. pose proof (Permutation_in a H (or_introl eq_refl)) as Ha. destruct Ha as [<-|[<-|[]]].
    + apply Permutation_cons_inv in H. apply Permutation_length_1 in H. auto.
    + pose proof (Permutation_trans H (perm_swap _ _ _)) as H2. apply Permutation_cons_inv in H2.
      apply Permutation_length_1 in H2. auto.
  - intros [[-> ->]|[-> ->]]; [apply Permutation_refl | apply perm_swap].
Qed.

Lemma ends_perm t i : 0 <= i < 3 -> Permutation (ends t i) [t_v t (nx i); t_v t (pv i)].
Proof.
  intros Hi. assert (C : i = 0 \/ i = 1 \/ i = 2) by lia. destruct C as [->|[->| ->]]; cbn.
  - apply Permutation_refl.
  - apply perm_swap.
  - apply Permutation_refl.
Qed.

Lemma coincide_ends t i u j : 0 <= i < 3 -> 0 <= j < 3 ->
  (coincide t i u j <-> (emin t i, emax t i) = (emin u j, emax u j)).
Proof.
  intros Hi Hj. unfold coincide. rewrite (ends_perm t i Hi), (ends_perm u j Hj), perm2, pair_equal_spec.
  unfold emin, emax. lia.
Qed.

Lemma names_same e t i : 0 <= i < 3 ->
  (names e t i <-> same_edge (e_a e) (e_b e) (t_v t (nx i)) (t_v t (pv i)) = true).
Proof.
  intros Hi. unfold names. rewrite (ends_perm t i Hi), perm2, same_edge_key. unfold ekey.
  rewrite !pair_equal_spec. lia.
Qed.

Lemma tst_bit t n : 0 <= n -> tst t (2 ^ n) = Z.testbit t n.
Proof.
  intros Hn. unfold tst. destruct (Z.testbit t n) eqn:E.
  - destruct (Z.eqb_spec (Z.land t (2 ^ n)) 0) as [Z0|]; [|reflexivity].
    exfalso. assert (X : Z.testbit (Z.land t (2 ^ n)) n = true) by (rewrite Z.land_spec, E, Z.pow2_bits_true by lia; reflexivity).
    rewrite Z0, Z.bits_0 in X. discriminate.
  - assert (Z.land t (2 ^ n) = 0) as ->; [|reflexivity].
    apply Z.bits_inj'. intros m Hm. rewrite Z.land_spec, Z.bits_0.
    destruct (Z.eq_dec m n) as [->|Nm]; [rewrite E; reflexivity|]. rewrite Z.pow2_bits_false by lia. apply andb_false_r.
Qed.

Lemma thaw_released t : released t (thaw t).
Proof.
  intros n Hn. unfold thaw, b_frozen. change G_NOSURF with (2 ^ 6). change G_REQ with (2 ^ 2).
  rewrite (tst_bit t 6) by lia. destruct (Z.testbit t 6) eqn:E; cbn [andb negb]; [|rewrite andb_true_r; reflexivity].
  rewrite !Z.ldiff_spec. 
  destruct (Z.eqb_spec n 2) as [->|N2]; [cbn [orb negb]; rewrite Z.pow2_bits_true by lia; cbn [negb]; rewrite !andb_false_r; reflexivity|].
  destruct (Z.eqb_spec n 6) as [->|N6]; [cbn [orb negb]; rewrite (Z.pow2_bits_true 6) by lia; cbn [negb]; rewrite !andb_false_r; reflexivity|].
  rewrite !Z.pow2_bits_false by lia. cbn [orb negb]. rewrite !andb_true_r. reflexivity.
Qed.

Lemma released_eq t u : released t u -> u = thaw t.
Proof. intros H. apply Z.bits_inj'. intros n Hn. rewrite (H n Hn), (thaw_released t n Hn). reflexivity. Qed.

Lemma t_sin_bits t : t_sin t = b_crn t || b_req t.
Proof. unfold t_sin, b_crn, b_req. change G_CRN with (2 ^ 5). change G_REQ with (2 ^ 2). rewrite !tst_bit by lia. reflexivity. Qed.

Lemma fel_enc k i : 0 <= i < 3 -> fel (3 * (k - 1) + 1 + i) = k /\ floc (3 * (k - 1) + 1 + i) = i.
Proof.
  intros Hi. unfold fel, floc. replace (3 * (k - 1) + 1 + i - 1) with (i + (k - 1) * 3) by lia. split.
  - rewrite Z.div_add by lia. rewrite Z.div_small by lia. lia.
  - rewrite Z.mod_add by lia. apply Z.mod_small. lia.
Qed.

Lemma fel_dec f : 3 * (fel f - 1) + 1 + floc f = f.
Proof. unfold fel, floc. pose proof (Z.div_mod (f - 1) 3). lia. Qed.

(** ** C65: adjacencies *)

(** Building the adjacencies of any mesh succeeds, without undefined
    behaviour, and yields a table that fits the mesh.  [inival] is the largest
    [MMG5_int]: edge numbers must stay below it. *)
Theorem hash_2d_fits : forall inival nt ntmax a,
  mesh2 nt ntmax a -> 3 * nt < inival ->
  exists adj, hash2 inival nt ntmax a = Ret adj /\ alen adj = 3 * ntmax + 5 /\ fits2 nt a adj.
Proof.
  intros inival nt ntmax a (Hnt & Hlen & Hv) Hini.
  destruct (hash2_ok inival nt ntmax a Hnt Hlen Hini Hv) as (adj & E & J).
  exists adj. split; [exact E|]. split; [exact (j_len _ _ _ _ _ _ J)|].
  assert (Q : forall k i l j, side nt a k i -> side nt a l j ->
    (coincide (aget a k) i (aget a l) j <-> fid a (3 * (k - 1) + 1 + i) = fid a (3 * (l - 1) + 1 + j))).
  { intros k i l j (A1 & A2 & A3) (B1 & B2 & B3). destruct (fel_enc k i A3) as [E1 E2]. destruct (fel_enc l j B3) as [E3 E4].
    rewrite !fid_live by (unfold live; rewrite ?E1, ?E3; assumption). rewrite E1, E2, E3, E4. apply coincide_ends; assumption. }
  constructor.
  - intros k i S. pose proof S as (A1 & A2 & A3). unfold entry. set (f := 3 * (k - 1) + 1 + i).
    assert (Hf : 1 <= f <= 3 * nt) by (unfold f; lia).
    destruct (Z.eq_dec (aget adj f) 0) as [Z0|Nz]; [left; exact Z0 | right].
    pose proof (j_done _ _ _ _ _ _ J f ltac:(lia)).
    destruct (j_sym _ _ _ _ _ _ J f Hf ltac:(lia)) as (g & G1 & G2 & G3 & G4 & G5).
    destruct (fel_range nt g G1) as [R1 R2]. pose proof (fel_dec g) as D.
    destruct (twin_live nt a Hv g f G1 Hf G2 G5) as [Lg _].
    assert (Sg : side nt a (fel g) (floc g)) by (split; [exact R1 | split; [exact Lg | exact R2]]).
    exists (fel g), (floc g). split; [exact Sg|].
    split; [intros Eq; apply pair_equal_spec in Eq; destruct Eq as [Q1 Q2]; rewrite Q1, Q2 in D; unfold f in G2; congruence|].
    rewrite D. split; [lia|]. split; [unfold f in G4 |- *; lia|].
    apply (Q _ _ _ _ S Sg). rewrite D. fold f. congruence.
  - intros k i l j S1 S2 Nq C Z0. unfold entry in *. apply (Q _ _ _ _ S1 S2) in C.
    destruct S1 as (A1 & A2 & A3). destruct S2 as (B1 & B2 & B3).
    assert (N : 3 * (k - 1) + 1 + i <> 3 * (l - 1) + 1 + j) by (intros X; apply Nq; rewrite pair_equal_spec; lia).
    pose proof (j_free _ _ _ _ _ _ J (3 * (k - 1) + 1 + i) (3 * (l - 1) + 1 + j) ltac:(lia) ltac:(lia) N C Z0). lia.
  - intros k i Hk Hi NS. unfold entry. destruct (Z_lt_le_dec nt k) as [Hg|Hl].
    + apply (j_out _ _ _ _ _ _ J). lia.
    + apply (j_hole _ _ _ _ _ _ J); [lia|]. intros L. apply NS. unfold live in L.
      destruct (fel_enc k i Hi) as [E1 _]. rewrite E1 in L. split; [lia|]. auto.
Qed.
Print Assumptions hash_2d_fits.

(** In a conforming mesh the neighbour of an edge is the other edge with the
    same vertices. *)
Theorem hash_2d_neighbours : forall inival nt ntmax a,
  mesh2 nt ntmax a -> 3 * nt < inival -> conforming nt a ->
  exists adj, hash2 inival nt ntmax a = Ret adj /\
   forall k i l j, side nt a k i -> side nt a l j -> (l, j) <> (k, i) ->
     (entry adj k i = 3 * l + j <-> coincide (aget a k) i (aget a l) j).
Proof.
  intros inival nt ntmax a M Hini Hman.
  destruct (hash_2d_fits inival nt ntmax a M Hini) as (adj & E & _ & F).
  exists adj. split; [exact E|]. intros k i l j S1 S2 Nq. split.
  - intros He. destruct (fit_sym _ _ _ F k i S1) as [Z0|(l' & j' & S3 & _ & L4 & _ & L6)].
    + destruct S2 as (? & ? & ?). lia.
    + assert (l' = l /\ j' = j) as [-> ->]; [|exact L6]. destruct S2 as (? & ? & ?), S3 as (? & ? & ?). lia.
  - intros C. destruct (fit_sym _ _ _ F k i S1) as [Z0|(l' & j' & S3 & L3 & L4 & _ & L6)].
    + pose proof (fit_max _ _ _ F k i l j S1 S2 Nq C Z0) as Nz.
      destruct (fit_sym _ _ _ F l j S2) as [Z1|(m & n & S4 & M3 & M4 & M5 & M6)]; [congruence|].
      destruct (Hman l j k i m n S2 S1 S4 (Permutation_sym C) M6) as [Q|[Q|Q]]; [congruence|congruence|].
      apply pair_equal_spec in Q. destruct Q as [-> ->]. destruct S2 as (? & ? & ?). lia.
    + destruct (Hman k i l j l' j' S1 S2 S3 C L6) as [Q|[Q|Q]]; congruence.
Qed.
Print Assumptions hash_2d_neighbours.

(** ** C66: the edges of the user *)

(** [m] is the first edge given with the vertices of the edge [i] of [t]. *)
Definition first_for (ed : arr edge) (na : Z) (t : tri) (i m : Z) : Prop :=
  1 <= m <= na /\ names (aget ed m) t i /\ forall j, 1 <= j < m -> ~ names (aget ed j) t i.

(** Tag of an edge of a triangle before the edges of the user are looked at:
    the first time, required edges are forgotten unless the three edges of the
    triangle are required. *)
Definition start_tag (first : bool) (t : tri) (i u : Z) : Prop :=
  if first && negb (b_req (t_tag t 0) && b_req (t_tag t 1) && b_req (t_tag t 2))
  then forall n, 0 <= n -> Z.testbit u n = Z.testbit (t_tag t i) n && negb (n =? 2)
  else u = t_tag t i.

Definition good_edges (na : Z) (ed : arr edge) : Prop :=
  0 <= na < alen ed /\ forall k, 1 <= k <= na -> 0 < e_a (aget ed k) /\ 0 < e_b (aget ed k).

(** A triangle after the edges [1..na] have been given. *)
Record received (first : bool) (na : Z) (ed : arr edge) (t u : tri) : Prop := {
  r_v : forall i, t_v u i = t_v t i;
  r_ref : t_ref u = t_ref t;
  (* the data of the first edge given *)
  r_some : forall i m, 0 <= i < 3 -> first_for ed na t i m ->
     t_edg u i = e_ref (aget ed m) /\ exists s, start_tag first t i s /\ t_tag u i = Z.lor s (e_tag (aget ed m));
  (* nothing else *)
  r_none : forall i, 0 <= i < 3 -> (forall m, 1 <= m <= na -> ~ names (aget ed m) t i) ->
     t_edg u i = t_edg t i /\ start_tag first t i (t_tag u i)
}.

Lemma unreq_start t i : start_tag true t i (t_tag (unreq t) i).
Proof.
  unfold start_tag, unreq, b_req. change G_REQ with (2 ^ 2). rewrite !tst_bit by lia.
  destruct (Z.testbit (t_tag t 0) 2 && Z.testbit (t_tag t 1) 2 && Z.testbit (t_tag t 2) 2); cbn [negb andb]; [reflexivity|].
  intros n Hn. cbn [t_tag set_tg]. rewrite Z.ldiff_spec. destruct (Z.eqb_spec n 2) as [->|N].
  - rewrite Z.pow2_bits_true by lia. reflexivity.
  - rewrite Z.pow2_bits_false by lia. reflexivity.
Qed.

Lemma unreq_rest t : t_v (unreq t) = t_v t /\ t_edg (unreq t) = t_edg t /\ t_ref (unreq t) = t_ref t.
Proof. unfold unreq. destruct (tst (t_tag t 0) G_REQ && tst (t_tag t 1) G_REQ && tst (t_tag t 2) G_REQ); repeat split. Qed.

(** The edges given reach the triangles: for every mesh, all edges, called for
    the first time or not, with or without memory. *)
Theorem edges_reach_triangles : forall first nt ntmax na gr ed a,
  mesh2 nt ntmax a -> good_edges na ed ->
  exists o, assign_edges first nt na gr ed a = Ret o /\
  match o with
  | None => exists k, 1 <= k <= na /\ gr k < 1
  | Some b => alen b = alen a /\
      (forall k, 1 <= k <= nt -> t_v (aget a k) 0 <> 0 -> received first na ed (aget a k) (aget b k)) /\
      (forall k, ~ (1 <= k <= nt /\ t_v (aget a k) 0 <> 0) -> same_tri (aget b k) (aget a k))
  end.
Proof.
  intros first nt ntmax na gr ed a (Hnt & Hlen & Hv) (Hna & Hpos). unfold assign_edges.
  (* first step *)
  assert (H1 : exists b, (if first then unreq_all nt a else Ret a) = Ret b /\ alen b = alen a /\
     forall k, aget b k = if (1 <=? k) && (k <=? nt) && t_eok (aget a k) then (if first then unreq (aget a k) else aget a k) else aget a k).
  { destruct first.
    - apply unreq_all_ok. lia.
    - exists a. split; [reflexivity|]. split; [reflexivity|]. intros k.
      destruct ((1 <=? k) && (k <=? nt) && t_eok (aget a k)); reflexivity. }
  destruct H1 as (b & Eb & Lb & Gb). rewrite Eb. cbn [bind].
  assert (Ok : forall k, 1 <= k <= nt -> (t_eok (aget a k) = true <-> t_v (aget a k) 0 <> 0)).
  { intros k Hk. unfold t_eok. rewrite Z.ltb_lt. split; [lia|]. intros N. apply Hv; [exact Hk | exact N | lia]. }
  assert (Vb : forall k i, t_v (aget b k) i = t_v (aget a k) i).
  { intros k i. rewrite Gb. destruct ((1 <=? k) && (k <=? nt) && t_eok (aget a k)); [|reflexivity].
    destruct first; [|reflexivity]. destruct (unreq_rest (aget a k)) as (-> & _). reflexivity. }
  assert (Rb : forall k, t_ref (aget b k) = t_ref (aget a k)).
  { intros k. rewrite Gb. destruct ((1 <=? k) && (k <=? nt) && t_eok (aget a k)); [|reflexivity].
    destruct first; [|reflexivity]. destruct (unreq_rest (aget a k)) as (_ & _ & ->). reflexivity. }
  assert (Edb : forall k i, t_edg (aget b k) i = t_edg (aget a k) i).
  { intros k i. rewrite Gb. destruct ((1 <=? k) && (k <=? nt) && t_eok (aget a k)); [|reflexivity].
    destruct first; [|reflexivity]. destruct (unreq_rest (aget a k)) as (_ & -> & _). reflexivity. }
  assert (Tb : forall k i, 1 <= k <= nt -> t_v (aget a k) 0 <> 0 -> start_tag first (aget a k) i (t_tag (aget b k) i)).
  { intros k i Hk N. rewrite Gb. destruct (Z.leb_spec 1 k), (Z.leb_spec k nt); try lia.
    rewrite (proj2 (Ok k Hk) N). cbn [andb]. destruct first; [apply unreq_start | reflexivity]. }
  assert (Hb : forall k, ~ (1 <= k <= nt /\ t_v (aget a k) 0 <> 0) -> aget b k = aget a k).
  { intros k N. rewrite Gb. destruct (Z.leb_spec 1 k), (Z.leb_spec k nt); try reflexivity. cbn [andb].
    destruct (t_eok (aget a k)) eqn:X; [|reflexivity]. exfalso. apply N. split; [lia|]. apply Ok; [lia | exact X]. }
  destruct (Z.eqb_spec na 0) as [->|Nz].
  - exists (Some b). split; [reflexivity|]. split; [exact Lb|]. split.
    + intros k Hk N. constructor; [apply Vb | apply Rb | | ].
      * intros i m Hi (F & _). lia.
      * intros i Hi _. split; [apply Edb | apply Tb; assumption].
    + intros k N. rewrite (Hb k N). apply same_refl.
  - destruct (hash_edges_ok na gr ed Hna Hpos) as (o & Eo & P). rewrite Eo. cbn [bind].
    destruct o as [h|]; [|exists None; split; [reflexivity | exact P]].
    destruct P as (M & R & F).
    assert (EO : forall k, t_eok (aget b k) = t_eok (aget a k)) by (intros k; unfold t_eok; rewrite Vb; reflexivity).
    (* lookups *)
    assert (Lk : forall t i, 0 <= i < 3 -> match look M t i with
       | Some m => first_for ed na t i m
       | None => forall m, 1 <= m <= na -> ~ names (aget ed m) t i end).
    { intros t i Hi. unfold look. pose proof (F (t_v t (nx i)) (t_v t (pv i))) as X.
      destruct (M (t_v t (nx i)) (t_v t (pv i))) as [m|].
      - destruct X as (A & B & C). split; [lia|]. split; [apply names_same; assumption|].
        intros j Hj N. apply names_same in N; [|exact Hi]. rewrite C in N by lia. discriminate.
      - intros m Hm N. apply names_same in N; [|exact Hi]. rewrite X in N by lia. discriminate. }
    assert (Uq : forall t i m m', first_for ed na t i m -> first_for ed na t i m' -> m = m').
    { intros t i m m' (A & B & C) (A' & B' & C'). destruct (Z_lt_le_dec m m') as [Hl|Hg].
      - exfalso. apply (C' m); [lia | exact B].
      - destruct (Z.eq_dec m m') as [|N]; [assumption|]. exfalso. apply (C m'); [lia | exact B']. }
    destruct (assign_all_ok nt h M ed na b ltac:(lia) R F ltac:(lia)) as (c & Ec & Lc & Gc).
    { intros k Hk N i Hi. rewrite Vb in N |- *. apply Hv; [exact Hk | lia | exact Hi]. }
    rewrite Ec. cbn [bind]. exists (Some c). split; [reflexivity|]. split; [congruence|]. split.
    + intros k Hk N. specialize (Gc k). destruct (Z.leb_spec 1 k), (Z.leb_spec k nt); try lia. cbn [andb] in Gc.
      rewrite EO, (proj2 (Ok k Hk) N) in Gc. destruct Gc as (V & T & D & RR). constructor.
      * intros i. rewrite V. cbn [t_v given]. apply Vb.
      * rewrite RR. apply Rb.
      * intros i m Hi Fm. rewrite D, T. cbn [t_tag t_edg given]. destruct (Z.leb_spec 0 i), (Z.ltb_spec i 3); try lia. cbn [andb].
        assert (LE : look M (aget b k) i = look M (aget a k) i) by (unfold look; rewrite !Vb; reflexivity).
        rewrite LE. pose proof (Lk (aget a k) i Hi) as X. destruct (look M (aget a k) i) as [m'|].
        -- rewrite (Uq _ _ _ _ X Fm). split; [reflexivity|]. exists (t_tag (aget b k) i). split; [apply Tb; assumption | reflexivity].
        -- exfalso. destruct Fm as (A & B & _). exact (X m A B).
      * intros i Hi Nm. rewrite D, T. cbn [t_tag t_edg given]. destruct (Z.leb_spec 0 i), (Z.ltb_spec i 3); try lia. cbn [andb].
        assert (LE : look M (aget b k) i = look M (aget a k) i) by (unfold look; rewrite !Vb; reflexivity).
        rewrite LE. pose proof (Lk (aget a k) i Hi) as X. destruct (look M (aget a k) i) as [m'|].
        -- exfalso. destruct X as (A & B & _). exact (Nm m' A B).
        -- split; [apply Edb | apply Tb; assumption].
    + intros k N. specialize (Gc k). rewrite EO, (Hb k N) in Gc.
      destruct (Z.leb_spec 1 k), (Z.leb_spec k nt); cbn [andb] in Gc; try exact Gc.
      destruct (t_eok (aget a k)) eqn:X; [|exact Gc]. exfalso. apply N. split; [lia|]. apply Ok; [lia | exact X].
Qed.
Print Assumptions edges_reach_triangles.

(** ** C67: the edges returned *)

(** Released and still a corner or required. *)
Definition kept (tag : Z) : bool := b_crn tag || (b_req tag && negb (b_frozen tag)).

(** The edges of triangles that make an edge of the mesh. *)
Definition wanted (opn : bool) (a : arr tri) (adj : arr Z) (k i : Z) : Prop :=
  entry adj k i = 0 \/
  exists l j, 0 <= j < 3 /\ entry adj k i = 3 * l + j /\
    (t_ref (aget a l) < t_ref (aget a k) \/
     (t_ref (aget a l) = t_ref (aget a k) /\ kept (t_tag (aget a k) i) = true) \/
     (opn = true /\ (b_ref (t_tag (aget a k) i) || b_bdy (t_tag (aget a k) i)) = true)).

(** The edge [e] is made from the edge [i] of [t]. *)
Definition carries (t : tri) (i : Z) (e : edge) : Prop :=
  names e t i /\ e_ref e = t_edg t i /\ released (t_tag t i) (e_tag e).

Section Out.
Variable opn : bool.
Variables nt ntmax : Z.
Variable a : arr tri.
Variable adj : arr Z.
Hypothesis HM : mesh2 nt ntmax a.
Hypothesis HL : alen adj = 3 * ntmax + 5.
Hypothesis HF : fits2 nt a adj.

Lemma side_dec k i : 1 <= k <= nt -> 0 <= i < 3 -> side nt a k i \/ ~ side nt a k i.
Proof.
  intros Hk Hi. destruct (Z.eq_dec (t_v (aget a k) 0) 0) as [E|N].
  - right. intros (_ & N & _). contradiction.
  - left. split; [exact Hk|]. auto.
Qed.

Lemma entry_range s : 1 <= s <= 3 * nt -> 0 <= aget adj s <= 3 * nt + 2.
Proof.
  intros Hs. pose proof (fel_dec s) as D. destruct (fel_range nt s Hs) as [R1 R2].
  assert (E : aget adj s = entry adj (fel s) (floc s)) by (unfold entry; rewrite D; reflexivity). rewrite E.
  destruct (side_dec (fel s) (floc s) R1 R2) as [S|N].
  - destruct (fit_sym _ _ _ HF _ _ S) as [->|(l & j & (L1 & _ & L3) & _ & -> & _)]; lia.
  - rewrite (fit_out _ _ _ HF (fel s) (floc s) (proj1 R1) R2 N). lia.
Qed.

Lemma eok_side k : 1 <= k <= nt -> (t_eok (aget a k) = true <-> t_v (aget a k) 0 <> 0).
Proof.
  intros Hk. destruct HM as (_ & _ & Hv). unfold t_eok. rewrite Z.ltb_lt. split; [lia|].
  intros N. apply Hv; [exact Hk | exact N | lia].
Qed.

Lemma kept_thaw t : t_sin (thaw t) = kept t.
Proof.
  rewrite t_sin_bits. unfold kept, b_crn, b_req. rewrite !(thaw_released t) by lia. unfold b_frozen.
  cbn [Z.eqb Pos.eqb orb]. rewrite andb_false_r, andb_true_r. cbn [negb]. rewrite andb_true_r. reflexivity.
Qed.

Lemma marks_thaw t : tst (thaw t) G_REF || tst (thaw t) G_BDY = b_ref t || b_bdy t.
Proof.
  change G_REF with (2 ^ 0). change G_BDY with (2 ^ 4). rewrite !tst_bit by lia. rewrite !(thaw_released t) by lia.
  cbn [Z.eqb Pos.eqb orb]. rewrite andb_false_r. cbn [negb]. rewrite !andb_true_r. reflexivity.
Qed.

Lemma sel_wanted k i : side nt a k i -> (sel opn adj a (3 * k + i) = true <-> wanted opn a adj k i).
Proof.
  intros S. pose proof S as (A1 & A2 & A3). destruct (slot_at k i A3) as [D M]. unfold sel.
  rewrite D, M. rewrite (proj2 (eok_side k A1) A2). cbn [andb].
  assert (En : aget adj (3 * k + i - 2) = entry adj k i) by (unfold entry; f_equal; lia).
  unfold ngb, stored. rewrite En. rewrite kept_thaw, marks_thaw. unfold wanted.
  destruct (fit_sym _ _ _ HF k i S) as [Z0|(l & j & (L1 & L2 & L3) & _ & E & _)].
  - rewrite Z0. cbn. tauto.
  - destruct (slot_at l j L3) as [D1 _]. rewrite E, D1.
    destruct (Z.eqb_spec l 0); [lia|]. cbn [orb].
    split.
    + intros H. right. exists l, j. split; [exact L3|]. split; [reflexivity|].
      apply orb_prop in H. destruct H as [H|H]; [apply orb_prop in H; destruct H as [H|H]|].
      * left. lia.
      * apply andb_prop in H. destruct H as [H1 H2]. right. left. split; [lia | exact H2].
      * apply andb_prop in H. destruct H as [H1 H2]. right. right. split; [exact H1 | exact H2].
    + intros [H|(l' & j' & L3' & E' & H)]; [lia|]. assert (l' = l) as -> by lia.
      destruct H as [H|[[H1 H2]|[H1 H2]]].
      * destruct (Z.ltb_spec (t_ref (aget a l)) (t_ref (aget a k))); [reflexivity | lia].
      * rewrite H2. destruct (Z.eqb_spec (t_ref (aget a k)) (t_ref (aget a l))); [|lia]. rewrite orb_true_r. reflexivity.
      * rewrite H1, H2. apply orb_true_r.
Qed.

Lemma sel_side s : 3 <= s < 3 * nt + 3 -> sel opn adj a s = true -> side nt a (s / 3) (s mod 3) /\ s = 3 * (s / 3) + s mod 3.
Proof.
  intros Hs H. pose proof (Z.div_mod s 3 ltac:(lia)). pose proof (Z.mod_pos_bound s 3 ltac:(lia)).
  assert (1 <= s / 3 <= nt) by lia. split; [|lia]. split; [assumption|]. split; [|assumption].
  apply eok_side; [assumption|]. unfold sel in H. apply andb_prop in H. destruct H as [H _]. exact H.
Qed.

Lemma made_carries k i : side nt a k i -> carries (aget a k) i (made a (3 * k + i)).
Proof.
  intros (A1 & A2 & A3). destruct (slot_at k i A3) as [D M]. unfold made. rewrite D, M.
  split; [|split; [reflexivity | apply thaw_released]].
  unfold names. cbn [e_a e_b]. apply Permutation_sym, ends_perm. exact A3.
Qed.

Definition slots : list Z := map (fun n => 3 + Z.of_nat n) (seq 0 (Z.to_nat (3 * nt))).
Lemma in_slots s : In s slots <-> 3 <= s < 3 * nt + 3.
Proof.
  unfold slots. rewrite in_map_iff. split.
  - intros (n & <- & H). apply in_seq in H. lia.
  - intros H. exists (Z.to_nat (s - 3)). split; [lia|]. apply in_seq. lia.
Qed.
Definition origin (j : Z) : Z :=
  match find (fun s => sel opn adj a s && (cnt opn adj a s + 1 =? j)) slots with Some s => s | None => 0 end.

Lemma origin_ok j : 1 <= j <= cnt opn adj a (3 * nt + 3) ->
  3 <= origin j < 3 * nt + 3 /\ sel opn adj a (origin j) = true /\ cnt opn adj a (origin j) + 1 = j.
Proof.
  intros H. destruct HM as (H1 & H2 & _).
  destruct (cnt_onto opn nt ntmax adj a H1 entry_range j H) as (s & A & B & C).
  unfold origin. destruct (find _ slots) as [s'|] eqn:E.
  - apply find_some in E. destruct E as [E1 E2]. apply in_slots in E1. apply andb_prop in E2. destruct E2 as [E2 E3].
    split; [exact E1|]. split; [exact E2 | lia].
  - exfalso. pose proof (find_none _ _ E s (proj2 (in_slots s) A)) as X. cbv beta in X. rewrite B in X. cbn [andb] in X. lia.
Qed.

End Out.

(** The edges returned are made from the wanted edges of the triangles, one
    from each; the triangles only lose the marks of Mmg. *)
Theorem edges_made : forall opn nt ntmax a adj,
  mesh2 nt ntmax a -> alen adj = 3 * ntmax + 5 -> fits2 nt a adj ->
  exists b na ed src, pack_edges opn nt adj a = Ret (b, na, ed) /\ 0 <= na /\
   (forall j, 1 <= j <= na ->
      side nt a (fst (src j)) (snd (src j)) /\ wanted opn a adj (fst (src j)) (snd (src j)) /\
      carries (aget a (fst (src j))) (snd (src j)) (aget ed j)) /\
   (forall j j', 1 <= j <= na -> 1 <= j' <= na -> src j = src j' -> j = j') /\
   (forall k i, side nt a k i -> wanted opn a adj k i -> exists j, 1 <= j <= na /\ src j = (k, i)) /\
   (forall k, (forall i, t_v (aget b k) i = t_v (aget a k) i /\ t_edg (aget b k) i = t_edg (aget a k) i) /\
              t_ref (aget b k) = t_ref (aget a k)) /\
   (forall k i, side nt a k i -> released (t_tag (aget a k) i) (t_tag (aget b k) i)).
Proof.
  intros opn nt ntmax a adj HM HL HF. pose proof HM as (H1 & H2 & Hv).
  destruct (pack_ok opn nt ntmax adj a H1 H2 HL (entry_range nt a adj HF)) as (b & na & ed & E & En & Lb & G & S & _).
  exists b, na, ed, (fun j => (origin opn nt a adj j / 3, origin opn nt a adj j mod 3)).
  split; [exact E|]. split; [rewrite En; apply cnt_nonneg|].
  pose proof (fun j Hj => origin_ok opn nt ntmax a adj HM HF j Hj) as OK. rewrite <- En in OK.
  split; [|split; [|split; [|split]]].
  - intros j Hj. destruct (OK j Hj) as (A & B & C). cbn [fst snd].
    destruct (sel_side opn nt ntmax a adj HM _ A B) as (Sd & Eq).
    split; [exact Sd|]. split.
    + apply (sel_wanted opn nt ntmax a adj HM HF _ _ Sd). rewrite <- Eq. exact B.
    + destruct (S _ A B) as (_ & X). rewrite C in X. rewrite X. rewrite Eq at 3.
      apply (made_carries nt a _ _ Sd).
  - intros j j' Hj Hj' Eq. destruct (OK j Hj) as (A & B & C). destruct (OK j' Hj') as (A' & B' & C').
    apply pair_equal_spec in Eq. destruct Eq as [Q1 Q2].
    destruct (sel_side opn nt ntmax a adj HM _ A B) as (_ & X). destruct (sel_side opn nt ntmax a adj HM _ A' B') as (_ & X').
    assert (origin opn nt a adj j = origin opn nt a adj j') as Eo by (rewrite X, X', Q1, Q2; reflexivity).
    rewrite <- C, <- C', Eo. reflexivity.
  - intros k i Sd W. apply (sel_wanted opn nt ntmax a adj HM HF _ _ Sd) in W. pose proof Sd as (A1 & A2 & A3).
    assert (Hs : 3 <= 3 * k + i < 3 * nt + 3) by lia.
    destruct (S _ Hs W) as (B1 & B2).
    assert (Hj : 1 <= cnt opn adj a (3 * k + i) + 1 <= na) by (pose proof (cnt_nonneg opn adj a (3 * k + i)); lia).
    exists (cnt opn adj a (3 * k + i) + 1). split; [exact Hj|].
    destruct (OK _ Hj) as (A & B & C).
    rewrite (cnt_inj opn nt ntmax adj a H1 (entry_range nt a adj HF) _ _ (proj1 A) (proj1 Hs) B W (proj1 (Z.add_cancel_r _ _ 1) C)).
    destruct (slot_at k i A3) as [-> ->]. reflexivity.
  - intros k. specialize (G k). destruct ((1 <=? k) && (k <=? nt) && t_eok (aget a k)); destruct G as (V & T & D & R);
    (split; [intros i; split; [apply V | apply D] | exact R]).
  - intros k i Sd. pose proof Sd as (A1 & A2 & A3). specialize (G k).
    destruct (Z.leb_spec 1 k), (Z.leb_spec k nt); try lia. rewrite (proj2 (eok_side nt ntmax a HM k A1) A2) in G. cbn [andb] in G.
    destruct G as (V & T & D & R). rewrite T. cbn [t_tag thawed]. destruct (Z.leb_spec 0 i), (Z.ltb_spec i 3); try lia.
    cbn [andb]. apply thaw_released.
Qed.
Print Assumptions edges_made.

(** [j] is an edge returned with the vertices of the edge [i] of [t]. *)
Definition found (na : Z) (ed : arr edge) (t : tri) (i j : Z) : Prop := 1 <= j <= na /\ names (aget ed j) t i.

Lemma names_coincide e t i u j : names e t i -> names e u j -> coincide t i u j.
Proof. unfold names, coincide. intros A B. eapply Permutation_trans; [apply Permutation_sym; exact A | exact B]. Qed.

(** In a conforming mesh the other edge with the same vertices is the neighbour. *)
Lemma other_side nt a adj k i l j : fits2 nt a adj -> conforming nt a -> side nt a k i -> side nt a l j ->
  coincide (aget a k) i (aget a l) j -> (l, j) = (k, i) \/ (entry adj k i = 3 * l + j /\ entry adj l j = 3 * k + i).
Proof.
  intros F Hman S1 S2 C. 
  assert (Dc : {(l, j) = (k, i)} + {(l, j) <> (k, i)}) by (decide equality; apply Z.eq_dec).
  destruct Dc as [|Nq]; [left; assumption | right].
  destruct (fit_sym _ _ _ F k i S1) as [Z0|(l' & j' & S3 & L3 & L4 & L5 & L6)].
  - exfalso. pose proof (fit_max _ _ _ F k i l j S1 S2 Nq C Z0) as Nz.
    destruct (fit_sym _ _ _ F l j S2) as [Z1|(m & n & S4 & M3 & M4 & M5 & M6)]; [congruence|].
    destruct (Hman l j k i m n S2 S1 S4 (Permutation_sym C) M6) as [Q|[Q|Q]]; [congruence|congruence|].
    apply pair_equal_spec in Q. destruct Q as [-> ->]. destruct S2 as (? & ? & ?). lia.
  - destruct (Hman k i l j l' j' S1 S2 S3 C L6) as [Q|[Q|Q]]; [congruence|congruence|].
    apply pair_equal_spec in Q. destruct Q as [-> ->]. auto.
Qed.

(** An edge of the border of the mesh, and an edge between two references, are
    returned exactly once, with the data of the triangle (of the triangle with
    the larger reference).  With [opn] (option [-opnbdy]) this holds for the
    border only. *)
Theorem boundary_edges_once : forall opn nt ntmax a adj k i,
  mesh2 nt ntmax a -> alen adj = 3 * ntmax + 5 -> fits2 nt a adj -> conforming nt a -> side nt a k i ->
  entry adj k i = 0 \/
  (opn = false /\ exists l j, 0 <= j < 3 /\ entry adj k i = 3 * l + j /\ t_ref (aget a l) < t_ref (aget a k)) ->
  exists b na ed, pack_edges opn nt adj a = Ret (b, na, ed) /\
    exists m, found na ed (aget a k) i m /\ carries (aget a k) i (aget ed m) /\
      forall m', found na ed (aget a k) i m' -> m' = m.
Proof.
  intros opn nt ntmax a adj k i HM HL HF Hman S W.
  destruct (edges_made opn nt ntmax a adj HM HL HF) as (b & na & ed & src & E & _ & P1 & P2 & P3 & _).
  exists b, na, ed. split; [exact E|].
  assert (W' : wanted opn a adj k i).
  { destruct W as [Z0|(_ & l & j & A & B & C)]; [left; exact Z0 | right]. exists l, j. auto. }
  destruct (P3 k i S W') as (m & Hm & Em). exists m.
  destruct (P1 m Hm) as (_ & _ & Cm). rewrite Em in Cm. cbn [fst snd] in Cm.
  split; [split; [exact Hm | apply Cm]|]. split; [exact Cm|].
  intros m' (Hm' & Nm'). apply P2; [exact Hm' | exact Hm|]. rewrite Em.
  destruct (P1 m' Hm') as (S' & W2 & (N2 & _)).
  destruct (other_side nt a adj k i _ _ HF Hman S S' (names_coincide _ _ _ _ _ Nm' N2)) as [Q|[Q1 Q2]].
  - rewrite <- Q. destruct (src m'); reflexivity.
  - exfalso. destruct S' as (B1 & B2 & B3). destruct W as [Z0|(-> & l & j & A & B & C)]; [lia|].
    assert (l = fst (src m')) as -> by lia. pose proof S as (A1 & A2 & A3).
    destruct W2 as [Z2|(l2 & j2 & D1 & D2 & [D3|[[D3 _]|[D3 _]]])]; [lia| | |discriminate];
    assert (l2 = k) as -> by lia; lia.
Qed.
Print Assumptions boundary_edges_once.

(** An edge inside a reference that is neither required nor a corner is not
    returned (without [-opnbdy]). *)
Theorem plain_edges_dropped : forall nt ntmax a adj k i l j,
  mesh2 nt ntmax a -> alen adj = 3 * ntmax + 5 -> fits2 nt a adj -> conforming nt a -> side nt a k i -> side nt a l j ->
  entry adj k i = 3 * l + j -> t_ref (aget a l) = t_ref (aget a k) ->
  kept (t_tag (aget a k) i) = false -> kept (t_tag (aget a l) j) = false ->
  exists b na ed, pack_edges false nt adj a = Ret (b, na, ed) /\ forall m, ~ found na ed (aget a k) i m.
Proof.
  intros nt ntmax a adj k i l j HM HL HF Hman S S2 En Er K1 K2.
  destruct (edges_made false nt ntmax a adj HM HL HF) as (b & na & ed & src & E & _ & P1 & _).
  exists b, na, ed. split; [exact E|]. intros m (Hm & Nm). destruct (P1 m Hm) as (S' & W & (N2 & _)).
  pose proof S as (A1 & A2 & A3). pose proof S2 as (B1 & B2 & B3). pose proof S' as (C1 & C2 & C3).
  destruct (other_side nt a adj k i _ _ HF Hman S S' (names_coincide _ _ _ _ _ Nm N2)) as [Q|[Q1 Q2]].
  - apply pair_equal_spec in Q. destruct Q as [Q1 Q2]. rewrite Q1, Q2 in W.
    destruct W as [Z0|(l2 & j2 & D1 & D2 & [D3|[[_ D3]|[D3 _]]])]; [lia| |congruence|discriminate].
    assert (l2 = l) as -> by lia. lia.
  - assert (fst (src m) = l /\ snd (src m) = j) as [X1 X2] by lia. rewrite X1, X2 in W, Q2.
    destruct W as [Z0|(l2 & j2 & D1 & D2 & [D3|[[_ D3]|[D3 _]]])]; [lia| |congruence|discriminate].
    assert (l2 = k) as -> by lia. lia.
Qed.
Print Assumptions plain_edges_dropped.

(** A required edge inside a reference is returned twice: once for each
    triangle. *)
Theorem required_edges_twice : forall opn nt ntmax a adj k i l j,
  mesh2 nt ntmax a -> alen adj = 3 * ntmax + 5 -> fits2 nt a adj -> side nt a k i -> side nt a l j ->
  entry adj k i = 3 * l + j -> t_ref (aget a l) = t_ref (aget a k) ->
  kept (t_tag (aget a k) i) = true -> kept (t_tag (aget a l) j) = true ->
  exists b na ed, pack_edges opn nt adj a = Ret (b, na, ed) /\
    exists m m', m <> m' /\ found na ed (aget a k) i m /\ found na ed (aget a k) i m'.
Proof.
  intros opn nt ntmax a adj k i l j HM HL HF S S2 En Er K1 K2.
  destruct (edges_made opn nt ntmax a adj HM HL HF) as (b & na & ed & src & E & _ & P1 & P2 & P3 & _).
  exists b, na, ed. split; [exact E|].
  destruct (fit_sym _ _ _ HF k i S) as [Z0|(l' & j' & S3 & N3 & E3 & E4 & C3)]; [destruct S2 as (? & ? & ?); lia|].
  assert (l' = l /\ j' = j) as [-> ->] by (destruct S2 as (? & ? & ?), S3 as (? & ? & ?); lia).
  assert (W1 : wanted opn a adj k i).
  { right. exists l, j. split; [apply S2|]. split; [exact En|]. right. left. auto. }
  assert (W2 : wanted opn a adj l j).
  { right. exists k, i. split; [apply S|]. split; [exact E4|]. right. left. auto. }
  destruct (P3 k i S W1) as (m & Hm & Em). destruct (P3 l j S2 W2) as (m' & Hm' & Em').
  exists m, m'. split; [intros ->; congruence|].
  destruct (P1 m Hm) as (_ & _ & (N1 & _)). rewrite Em in N1. cbn [fst snd] in N1.
  destruct (P1 m' Hm') as (_ & _ & (N2 & _)). rewrite Em' in N2. cbn [fst snd] in N2.
  split; [split; assumption|]. split; [assumption|]. unfold names in *. eapply Permutation_trans; [exact N2|].
  apply Permutation_sym. exact C3.
Qed.
Print Assumptions required_edges_twice.

(** ** From the edges given to the edges returned *)

Lemma ends_ext t u i : (forall j, t_v t j = t_v u j) -> ends t i = ends u i.
Proof. intros H. unfold ends. apply map_ext. exact H. Qed.

(** Edges given without repetition on the border of the mesh (no other triangle
    has them), or between a triangle and one of smaller reference (without
    [-opnbdy]), come back exactly once, with their reference and at least their
    tags. *)
Theorem given_edges_returned : forall first opn inival nt ntmax na gr ed a k i m,
  mesh2 nt ntmax a -> 3 * nt < inival -> conforming nt a -> good_edges na ed ->
  (forall n, 1 <= n <= na -> 1 <= gr n) ->
  (forall n n', 1 <= n <= na -> 1 <= n' <= na -> Permutation [e_a (aget ed n); e_b (aget ed n)] [e_a (aget ed n'); e_b (aget ed n')] -> n = n') ->
  side nt a k i -> 1 <= m <= na -> names (aget ed m) (aget a k) i ->
  b_frozen (t_tag (aget a k) i) = false -> b_frozen (e_tag (aget ed m)) = false ->
  (forall l j, side nt a l j -> coincide (aget a k) i (aget a l) j -> (l, j) <> (k, i) ->
     opn = false /\ t_ref (aget a l) < t_ref (aget a k)) ->
  exists b adj c no out, assign_edges first nt na gr ed a = Ret (Some b) /\
    hash2 inival nt ntmax b = Ret adj /\ pack_edges opn nt adj b = Ret (c, no, out) /\
    exists p, found no out (aget a k) i p /\
      e_ref (aget out p) = e_ref (aget ed m) /\
      (forall n, 0 <= n -> Z.testbit (e_tag (aget ed m)) n = true -> Z.testbit (e_tag (aget out p)) n = true) /\
      forall p', found no out (aget a k) i p' -> p' = p.
Proof.
  intros first opn inival nt ntmax na gr ed a k i m HM Hini Hman HE Hgr Hdis S Hm Nm Z1 Z2 Hint.
  destruct (edges_reach_triangles first nt ntmax na gr ed a HM HE) as (o & Eo & P).
  destruct o as [b|]; [|destruct P as (n & Hn & Hg); specialize (Hgr n Hn); lia].
  destruct P as (Lb & Rb & Hb). pose proof HM as (H1 & H2 & Hv).
  assert (V : forall n j, t_v (aget b n) j = t_v (aget a n) j).
  { intros n j. destruct (Z_le_dec 1 n) as [B1|B1]; [destruct (Z_le_dec n nt) as [B2|B2];
      [destruct (Z.eq_dec (t_v (aget a n) 0) 0) as [B3|B3] |] |].
    - destruct (Hb n) as (X & _); [intros (_ & Y); contradiction | apply X].
    - apply (r_v _ _ _ _ _ (Rb n (conj B1 B2) B3)).
    - destruct (Hb n) as (X & _); [intros ((_ & Y) & _); contradiction | apply X].
    - destruct (Hb n) as (X & _); [intros ((Y & _) & _); contradiction | apply X]. }
  assert (Rf : forall n, t_ref (aget b n) = t_ref (aget a n)).
  { intros n. destruct (Z_le_dec 1 n) as [B1|B1]; [destruct (Z_le_dec n nt) as [B2|B2];
      [destruct (Z.eq_dec (t_v (aget a n) 0) 0) as [B3|B3] |] |].
    - destruct (Hb n) as (_ & _ & _ & X); [intros (_ & Y); contradiction | apply X].
    - apply (r_ref _ _ _ _ _ (Rb n (conj B1 B2) B3)).
    - destruct (Hb n) as (_ & _ & _ & X); [intros ((_ & Y) & _); contradiction | apply X].
    - destruct (Hb n) as (_ & _ & _ & X); [intros ((Y & _) & _); contradiction | apply X]. }
  assert (Sb : forall n j, side nt b n j <-> side nt a n j) by (intros n j; unfold side; rewrite V; tauto).
  assert (Enb : forall n j, ends (aget b n) j = ends (aget a n) j) by (intros n j; apply ends_ext, V).
  assert (HMb : mesh2 nt ntmax b).
  { split; [exact H1|]. split; [congruence|]. intros n Hn N j Hj. rewrite V in N |- *. apply Hv; assumption. }
  assert (Hmanb : conforming nt b).
  { intros k1 i1 l1 j1 m1 n1 A1 A2 A3. unfold coincide. rewrite !Enb. apply Hman; apply Sb; assumption. }
  destruct (hash_2d_fits inival nt ntmax b HMb Hini) as (adj & Ea & La & Fa).
  assert (Hw : entry adj k i = 0 \/ (opn = false /\ exists l j, 0 <= j < 3 /\ entry adj k i = 3 * l + j /\ t_ref (aget b l) < t_ref (aget b k))).
  { destruct (fit_sym _ _ _ Fa k i (proj2 (Sb k i) S)) as [Z0|(l & j & A & B & C & _ & D)]; [left; exact Z0 | right].
    destruct (Hint l j) as [X1 X2].
    - apply Sb. exact A.
    - unfold coincide in D |- *. rewrite !Enb in D. exact D.
    - exact B.
    - split; [exact X1|]. exists l, j. split; [apply A|]. split; [exact C|]. rewrite !Rf. exact X2. }
  destruct (boundary_edges_once opn nt ntmax b adj k i HMb La Fa Hmanb (proj2 (Sb k i) S) Hw)
    as (c & no & out & Ep & p & (Hp & Np) & (_ & Cr & Ct) & U).
  exists b, adj, c, no, out. split; [exact Eo|]. split; [exact Ea|]. split; [exact Ep|].
  exists p. assert (Fn : forall q, found no out (aget a k) i q <-> found no out (aget b k) i q).
  { intros q. unfold found, names. rewrite Enb. tauto. }
  split; [apply Fn; split; assumption|].
  pose proof S as (A1 & A2 & A3).
  destruct (r_some _ _ _ _ _ (Rb k A1 A2) i m A3) as (D1 & s & D2 & D3).
  { split; [exact Hm|]. split; [exact Nm|]. intros j Hj Nj.
    assert (j = m); [|lia]. apply Hdis; [lia | exact Hm|]. unfold names in *.
    eapply Permutation_trans; [exact Nj | apply Permutation_sym; exact Nm]. }
  split; [congruence|]. split.
  - intros n Hn Hb1. rewrite (Ct n Hn). rewrite D3. unfold b_frozen. rewrite !Z.lor_spec, Hb1, orb_true_r. cbn [andb].
    unfold b_frozen in Z1, Z2. rewrite Z2.
    assert (Sf : Z.testbit s 6 = false).
    { unfold start_tag in D2. destruct (first && _); [rewrite (D2 6) by lia; rewrite Z1; reflexivity | rewrite D2; exact Z1]. }
    rewrite Sf. reflexivity.
  - intros p' Hp'. apply U. apply Fn. exact Hp'.
Qed.
Print Assumptions given_edges_returned.

(** ** A case and the refutations *)

Definition at3 (x y z : Z) (i : Z) : Z := if i =? 0 then x else if i =? 1 then y else if i =? 2 then z else 0.
Definition tria (x y z ref : Z) : tri := mkTri (at3 x y z) (fun _ => 0) (fun _ => 0) ref.

(** Decision of [conforming]. *)
Definition all_sides (nt : Z) : list (Z * Z) :=
  flat_map (fun n => map (fun i => (Z.of_nat n, i)) [0; 1; 2]) (seq 1 (Z.to_nat nt)).
Definition meet_b (a : arr tri) (p q : Z * Z) : bool :=
  (emin (aget a (fst p)) (snd p) =? emin (aget a (fst q)) (snd q)) &&
  (emax (aget a (fst p)) (snd p) =? emax (aget a (fst q)) (snd q)).
Definition eq_b (p q : Z * Z) : bool := (fst p =? fst q) && (snd p =? snd q).
Definition live_b (a : arr tri) (p : Z * Z) : bool := negb (t_v (aget a (fst p)) 0 =? 0).
Definition conf_b (nt : Z) (a : arr tri) : bool :=
  let l := filter (live_b a) (all_sides nt) in
  forallb (fun p => forallb (fun q => forallb (fun r =>
    negb (meet_b a p q && meet_b a p r) || eq_b q p || eq_b r p || eq_b q r) l) l) l.

Lemma in_sides nt k i : 1 <= k <= nt -> 0 <= i < 3 -> In (k, i) (all_sides nt).
Proof.
  intros Hk Hi. unfold all_sides. apply in_flat_map. exists (Z.to_nat k). split; [apply in_seq; lia|].
  apply in_map_iff. exists i. split; [rewrite pair_equal_spec; split; [lia | reflexivity]|].
  assert (C : i = 0 \/ i = 1 \/ i = 2) by lia. destruct C as [->|[->| ->]]; cbn; auto.
Qed.

Lemma conf_b_ok nt a : conf_b nt a = true -> conforming nt a.
Proof.
  intros H k i l j m n (A1 & A2 & A3) (B1 & B2 & B3) (C1 & C2 & C3) Q1 Q2.
  apply coincide_ends in Q1; [|assumption|assumption]. apply coincide_ends in Q2; [|assumption|assumption].
  apply pair_equal_spec in Q1, Q2. destruct Q1 as [E1 E2], Q2 as [E3 E4].
  assert (IN : forall x y, 1 <= x <= nt -> t_v (aget a x) 0 <> 0 -> 0 <= y < 3 -> In (x, y) (filter (live_b a) (all_sides nt))).
  { intros x y D1 D2 D3. apply filter_In. split; [apply in_sides; assumption|]. unfold live_b. cbn [fst].
    destruct (Z.eqb_spec (t_v (aget a x) 0) 0); [contradiction | reflexivity]. }
  unfold conf_b in H. rewrite forallb_forall in H. specialize (H _ (IN k i A1 A2 A3)).
  rewrite forallb_forall in H. specialize (H _ (IN l j B1 B2 B3)).
  rewrite forallb_forall in H. specialize (H _ (IN m n C1 C2 C3)).
  unfold meet_b, eq_b in H. cbn [fst snd] in H. rewrite E1, E2, <- E3, <- E4, E1, E2, !Z.eqb_refl in H. cbn [andb negb orb] in H.
  apply orb_prop in H. destruct H as [H|H]; [apply orb_prop in H; destruct H as [H|H]|];
  apply andb_prop in H; destruct H as [X Y]; apply Z.eqb_eq in X, Y; subst; auto.
Qed.

(** A square cut in two triangles of reference 1 (numbers 1 and 3, 2 is a
    hole), and a triangle of reference 2 on one of its sides. *)
Definition square : arr tri :=
  mkArr 7 (aget (aof (tria 0 0 0 0) [tria 1 2 3 1; tria 0 0 3 0; tria 1 3 4 1; tria 3 5 4 2])).
(** The diagonal, required; the side between the references; a border edge. *)
Definition three_edges : arr edge :=
  aof edge0 [mkE 3 1 7 4; mkE 3 4 8 0; mkE 2 1 9 2].

Example square_mesh : mesh2 4 6 square.
Proof.
  split; [lia|]. split; [reflexivity|]. intros k Hk N i Hi.
  assert (k = 1 \/ k = 2 \/ k = 3 \/ k = 4) as C by lia. assert (i = 0 \/ i = 1 \/ i = 2) as D by lia.
  destruct C as [->|[->|[->| ->]]], D as [->|[->| ->]]; try reflexivity; exfalso; apply N; reflexivity.
Qed.
Example square_conforming : conforming 4 square.
Proof. apply conf_b_ok. vm_compute. reflexivity. Qed.
Example three_good : good_edges 3 three_edges.
Proof.
  split; [cbn; lia|]. intros k Hk. assert (k = 1 \/ k = 2 \/ k = 3) as C by lia.
  destruct C as [->|[->| ->]]; split; reflexivity.
Qed.
Example three_distinct : forall n n', 1 <= n <= 3 -> 1 <= n' <= 3 ->
  Permutation [e_a (aget three_edges n); e_b (aget three_edges n)] [e_a (aget three_edges n'); e_b (aget three_edges n')] -> n = n'.
Proof.
  intros n n' H H' P. apply perm2 in P. assert (n = 1 \/ n = 2 \/ n = 3) as C by lia. assert (n' = 1 \/ n' = 2 \/ n' = 3) as D by lia.
  destruct C as [->|[->| ->]], D as [->|[->| ->]]; vm_compute in P; try reflexivity; exfalso; destruct P as [[? ?]|[? ?]]; discriminate.
Qed.

(** What the three functions return for it. *)
Definition chain_of (first opn : bool) (nt ntmax na : Z) (ed : arr edge) (a : arr tri) : outcome (list (Z * Z * Z * Z)) :=
  o <- assign_edges first nt na (fun _ => 1) ed a ;;
  match o with
  | None => Stuck
  | Some b =>
      adj <- hash2 1000 nt ntmax b ;;
      '(c, no, out) <- pack_edges opn nt adj b ;;
      Ret (map (fun n => let e := aget out (Z.of_nat n) in (e_a e, e_b e, e_ref e, e_tag e)) (seq 1 (Z.to_nat no)))
  end.
Example square_out : chain_of true false 4 6 3 three_edges square =
  Ret [(2, 3, 0, 0); (3, 1, 7, 4); (1, 2, 9, 2); (4, 1, 0, 0); (1, 3, 7, 4); (5, 4, 0, 0); (4, 3, 8, 0); (3, 5, 0, 0)].
Proof. vm_compute. reflexivity. Qed.
(** The border edge 1-2 meets the hypotheses of [given_edges_returned]... *)
Example square_border : forall l j, side 4 square l j -> coincide (aget square 1) 2 (aget square l) j -> (l, j) <> (1, 2) ->
  false = false /\ t_ref (aget square l) < t_ref (aget square 1).
Proof.
  intros l j (A & B & C) Q N. apply coincide_ends in Q; [|lia|lia]. exfalso.
  assert (l = 1 \/ l = 2 \/ l = 3 \/ l = 4) as X by lia. assert (j = 0 \/ j = 1 \/ j = 2) as Y by lia.
  destruct X as [->|[->|[->| ->]]], Y as [->|[->| ->]]; vm_compute in Q, B; try discriminate Q; try (exfalso; apply B; reflexivity); apply N; reflexivity.
Qed.
(** ... and so does the edge 3-4 seen from the reference 2. *)
Example square_interface : forall l j, side 4 square l j -> coincide (aget square 4) 1 (aget square l) j -> (l, j) <> (4, 1) ->
  false = false /\ t_ref (aget square l) < t_ref (aget square 4).
Proof.
  intros l j (A & B & C) Q N. split; [reflexivity|]. apply coincide_ends in Q; [|lia|lia].
  assert (l = 1 \/ l = 2 \/ l = 3 \/ l = 4) as X by lia. assert (j = 0 \/ j = 1 \/ j = 2) as Y by lia.
  destruct X as [->|[->|[->| ->]]], Y as [->|[->| ->]]; vm_compute in Q, B; try discriminate Q; try (exfalso; apply B; reflexivity); try (exfalso; apply N; reflexivity); reflexivity.
Qed.

(** Every edge given once comes back once: false, a required edge inside a
    reference comes back twice. *)
Theorem edges_once_refuted : exists nt ntmax na ed a l,
  mesh2 nt ntmax a /\ conforming nt a /\ good_edges na ed /\
  (forall n n', 1 <= n <= na -> 1 <= n' <= na ->
     Permutation [e_a (aget ed n); e_b (aget ed n)] [e_a (aget ed n'); e_b (aget ed n')] -> n = n') /\
  chain_of true false nt ntmax na ed a = Ret l /\
  exists n n' x y x' y' r t r' t', n <> n' /\ nth_error l n = Some (x, y, r, t) /\ nth_error l n' = Some (x', y', r', t') /\
    Permutation [x; y] [x'; y'].
Proof.
  exists 4, 6, 3, three_edges, square.
  exists [(2, 3, 0, 0); (3, 1, 7, 4); (1, 2, 9, 2); (4, 1, 0, 0); (1, 3, 7, 4); (5, 4, 0, 0); (4, 3, 8, 0); (3, 5, 0, 0)].
  split; [exact square_mesh|]. split; [exact square_conforming|]. split; [exact three_good|].
  split; [exact three_distinct|]. split; [exact square_out|].
  exists 1%nat, 4%nat, 3, 1, 1, 3, 7, 4, 7, 4. split; [lia|]. split; [reflexivity|]. split; [reflexivity|]. apply perm_swap.
Qed.
Print Assumptions edges_once_refuted.

(** With [-opnbdy], an edge between two references that carries the mark of an
    edge with reference comes back twice. *)
Theorem interface_once_refuted : exists nt ntmax na ed a l,
  mesh2 nt ntmax a /\ conforming nt a /\ good_edges na ed /\
  chain_of true true nt ntmax na ed a = Ret l /\
  (forall n, 1 <= n <= na -> b_req (e_tag (aget ed n)) = false) /\
  exists n n' x y x' y' r t r' t', n <> n' /\ nth_error l n = Some (x, y, r, t) /\ nth_error l n' = Some (x', y', r', t') /\
    Permutation [x; y] [x'; y'].
Proof.
  exists 4, 6, 1, (aof edge0 [mkE 3 4 8 1]), square.
  exists [(2, 3, 0, 0); (1, 2, 0, 0); (3, 4, 8, 1); (4, 1, 0, 0); (5, 4, 0, 0); (4, 3, 8, 1); (3, 5, 0, 0)].
  split; [exact square_mesh|]. split; [exact square_conforming|].
  split; [split; [cbn; lia|]; intros k Hk; assert (k = 1) as -> by lia; split; reflexivity|].
  split; [vm_compute; reflexivity|].
  split; [intros n Hn; assert (n = 1) as -> by lia; reflexivity|].
  exists 2%nat, 5%nat, 3, 4, 4, 3, 8, 1, 8, 1. split; [lia|]. split; [reflexivity|]. split; [reflexivity|]. apply perm_swap.
Qed.
Print Assumptions interface_once_refuted.

(** Every edge given reaches its triangles: false, when an edge is given twice
    what is said the second time is lost, even that it is required. *)
Theorem every_edge_received_refuted : exists nt ntmax na ed a b k i m,
  mesh2 nt ntmax a /\ good_edges na ed /\ side nt a k i /\ 1 <= m <= na /\ names (aget ed m) (aget a k) i /\
  assign_edges true nt na (fun _ => 1) ed a = Ret (Some b) /\
  b_req (e_tag (aget ed m)) = true /\ b_req (t_tag (aget b k) i) = false.
Proof.
  set (ed := aof edge0 [mkE 1 2 7 0; mkE 2 1 7 4]).
  destruct (assign_edges true 4 2 (fun _ => 1) ed square) as [[b|]|] eqn:E.
  - exists 4, 6, 2, ed, square, b, 1, 2, 2. split; [exact square_mesh|].
    split; [split; [cbn; lia|]; intros k Hk; assert (k = 1 \/ k = 2) as C by lia; destruct C as [->| ->]; split; reflexivity|].
    split; [split; [lia|]; split; [discriminate | lia]|]. split; [lia|].
    split; [vm_compute; apply perm_swap|]. split; [exact E|]. split; [reflexivity|].
    assert (X : match assign_edges true 4 2 (fun _ => 1) ed square with
                | Ret (Some b) => b_req (t_tag (aget b 1) 2) | _ => true end = false) by (vm_compute; reflexivity).
    rewrite E in X. exact X.
  - exfalso. assert (X : match assign_edges true 4 2 (fun _ => 1) ed square with Ret None => false | _ => true end = true)
      by (vm_compute; reflexivity). rewrite E in X. discriminate.
  - exfalso. assert (X : match assign_edges true 4 2 (fun _ => 1) ed square with Stuck => false | _ => true end = true)
      by (vm_compute; reflexivity). rewrite E in X. discriminate.
Qed.
Print Assumptions every_edge_received_refuted.
