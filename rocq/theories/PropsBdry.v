(** Properties C33 and C42: the list of triangles after the check of the
    boundary made by the analysis of an input mesh. *)
From Coq Require Import ZArith List Bool Lia Permutation Sorted.
From Verif Require Import CBase Chain MeshModel HashModel HashSpec HashCorrect AdjaModel AdjaProofs PropsAdja SplitConf BdryModel BdryProofs.
Import ListNotations.
Open Scope Z_scope.

(** ** Specification *)

(** Face [i] of element [k] of a mesh of [ne] elements. *)
Definition is_face (ne k i : Z) : Prop := 1 <= k <= ne /\ 0 <= i < 4.
(** Triangle [t] lies on face [i] of [e]: same vertices. *)
Definition covers (t : btri) (e : tetra) (i : Z) : Prop := Permutation [ba t; bb t; bc t] (face e i).
(** Two triangles with the same vertices. *)
Definition same_tri (t u : btri) : Prop := Permutation [ba t; bb t; bc t] [ba u; bb u; bc u].

(** Face without neighbour; face between elements of distinct references. *)
Definition outer (ne : Z) (tet : arr tetra) (k i : Z) : Prop :=
  is_face ne k i /\ forall l j, is_face ne l j -> coincide (aget tet k) i (aget tet l) j -> (l, j) = (k, i).
Definition interface (ne : Z) (tet : arr tetra) (k i l j : Z) : Prop :=
  is_face ne k i /\ is_face ne l j /\ coincide (aget tet k) i (aget tet l) j /\ tref (aget tet k) <> tref (aget tet l).
Definition bdface (ne : Z) (tet : arr tetra) (k i : Z) : Prop :=
  outer ne tet k i \/ exists l j, interface ne tet k i l j.

(** No three faces coincide. *)
Definition manifold (ne : Z) (tet : arr tetra) : Prop :=
  forall k i l j m n, is_face ne k i -> is_face ne l j -> is_face ne m n ->
    coincide (aget tet k) i (aget tet l) j -> coincide (aget tet k) i (aget tet m) n ->
    (l, j) = (k, i) \/ (m, n) = (k, i) \/ (l, j) = (m, n).

(** Input: packed manifold mesh, [nt] triangles, [np] vertices. *)
Record input_ok (ne nemax : Z) (tet : arr tetra) (nt : Z) (tri : arr btri) (np : Z) : Prop := {
  io_pk : packed ne nemax tet;
  io_man : manifold ne tet;
  io_tet : forall k i, is_face ne k i -> tv (aget tet k) i <= np;
  io_nt : 0 <= nt;
  io_len : alen tri = nt + 1;
  io_tri : forall k v, 1 <= k <= nt -> In v [ba (aget tri k); bb (aget tri k); bc (aget tri k)] -> 1 <= v <= np }.

(** Triangle [k] of the user is wanted: it lies on the boundary (on any face when
    the open boundaries are preserved), and no earlier one has its vertices. *)
Definition wanted (opn : bool) (ne : Z) (tet : arr tetra) (nt : Z) (tri : arr btri) (k : Z) : Prop :=
  1 <= k <= nt /\
  (exists l i, is_face ne l i /\ covers (aget tri k) (aget tet l) i /\ (opn = true \/ bdface ne tet l i)) /\
  forall j, 1 <= j < k -> ~ same_tri (aget tri j) (aget tri k).

(** Same triangle but for the field [cc]. *)
Definition same_data (t u : btri) : Prop :=
  ba t = ba u /\ bb t = bb u /\ bc t = bc u /\ bref t = bref u /\ bdat t = bdat u.

(** [a[1..n]] lists, in their order, the wanted triangles. *)
Definition lists_wanted (opn : bool) (ne : Z) (tet : arr tetra) (nt : Z) (tri : arr btri) (n : Z) (a : arr btri) : Prop :=
  exists ks, StronglySorted Z.lt ks /\ n = Z.of_nat (length ks) /\
    (forall k, In k ks <-> wanted opn ne tet nt tri k) /\
    forall x, 1 <= x <= n -> same_data (aget a x) (aget tri (nth (Z.to_nat (x - 1)) ks 0)).

(** Triangle made for face [i] of element [k]. *)
Definition made (ne : Z) (tet : arr tetra) (iref : Z -> Z -> Z) (k i : Z) (t : btri) : Prop :=
  let e := aget tet k in
  [ba t; bb t; bc t] = [tv e (idir i 0); tv e (idir i 1); tv e (idir i 2)] /\ bdat t = 0 /\
  (outer ne tet k i /\ bref t = tref e \/
   exists l j, interface ne tet k i l j /\ tref (aget tet l) < tref e /\ bref t = iref (tref e) (tref (aget tet l))).

(** ** Proofs *)

Lemma perm_key a b c x y z : Permutation [a; b; c] [x; y; z] <-> fkey a b c = fkey x y z.
Proof.
  split.
  - intros H. apply perm3 in H. unfold fkey, min3, max3.
    destruct H as [H|[H|[H|[H|[H|H]]]]]; injection H as -> -> ->; (apply pair_equal_spec; split; [apply pair_equal_spec; split|]; lia).
  - intros H. apply same_face_key in H. apply same_face_perm in H. unfold HashCorrect.perm3 in H.
    destruct H as [H|[H|[H|[H|[H|H]]]]]; destruct H as [-> [-> ->]];
        repeat first [ apply Permutation_refl | apply perm_skip
        | apply perm_swap
        | (etransitivity; [apply perm_swap |]; apply perm_skip; solve [apply perm_swap | apply Permutation_refl])
        | (etransitivity; [apply perm_skip, perm_swap |]; apply perm_swap)
        | (etransitivity; [apply perm_swap |]; etransitivity; [apply perm_skip, perm_swap |]; apply perm_swap) ].
Qed.

Section Link.
Context (opn : bool) (ne nemax : Z) (tet : arr tetra) (nt : Z) (tri : arr btri) (np : Z).
Hypothesis IO : input_ok ne nemax tet nt tri np.
Context (adj : arr Z).
Hypothesis Ladj : alen adj = 4 * nemax + 5.
Hypothesis Fadj : adj_fits ne tet adj.

Lemma face_perm t i : 0 <= i < 4 -> Permutation (face t i) [fa t i; fb t i; fc t i].
Proof.
  intros Hi. assert (i = 0 \/ i = 1 \/ i = 2 \/ i = 3) as C by lia.
  destruct C as [->|[->|[->| ->]]]; cbv - [v0 v1 v2 v3].
  - apply Permutation_refl.
  - apply perm_skip, perm_swap.
  - apply Permutation_refl.
  - apply perm_skip, perm_swap.
Qed.
Lemma covers_key t k i : 0 <= i < 4 -> (covers t (aget tet k) i <-> kof tet (k, i) = key t).
Proof.
  intros Hi. unfold covers. rewrite (face_perm _ _ Hi), perm_key. unfold kof, key. cbn [fst snd]. split; intros H; symmetry; exact H.
Qed.
Lemma same_key t u : same_tri t u <-> key t = key u.
Proof. apply perm_key. Qed.
Lemma coin_key k i l j : 0 <= i < 4 -> 0 <= j < 4 -> (coincide (aget tet k) i (aget tet l) j <-> kof tet (k, i) = kof tet (l, j)).
Proof. intros Hi Hj. apply coin_k; assumption. Qed.

Lemma is_face_in k i : is_face ne k i <-> In (k, i) (all_faces ne).
Proof. rewrite in_faces. reflexivity. Qed.

Lemma good_mesh : good ne nemax tet adj.
Proof.
  destruct (io_pk _ _ _ _ _ _ IO) as (A & B & C). constructor.
  - exact (io_pk _ _ _ _ _ _ IO).
  - lia.
  - exact Fadj.
  - intros [k i] [l j] [m n] H1 H2 H3 E1 E2. apply is_face_in in H1, H2, H3.
    destruct (io_man _ _ _ _ _ _ IO k i l j m n H1 H2 H3) as [X|[X|X]]; auto.
    + apply coin_key; [apply H1|apply H2|exact E1].
    + apply coin_key; [apply H1|apply H3|exact E2].
Qed.

Lemma pair_dec (p q : Z * Z) : p = q \/ p <> q.
Proof. destruct p as [a b], q as [c d]. destruct (Z.eq_dec a c), (Z.eq_dec b d); [left; congruence|right; congruence..]. Qed.

(** Boundary faces in the sense of the model *)
Lemma is_b_cases k i : is_face ne k i -> is_b tet adj (k, i) = true ->
  (outer ne tet k i /\ nb adj (k, i) = 0) \/
  exists l j, interface ne tet k i l j /\ tref (aget tet l) < tref (aget tet k) /\ nb adj (k, i) <> 0 /\ Z.quot (nb adj (k, i)) 4 = l.
Proof.
  intros Hf B. pose proof Hf as Hin. apply is_face_in in Hin.
  destruct (nb_cases ne nemax tet adj good_mesh (k, i) Hin) as [Z0|([l j] & Hg & Ng & E1 & E2 & Kg)].
  - left. split; [|exact Z0]. split; [exact Hf|]. intros l j Hl C. apply coin_key in C; [|apply Hf|apply Hl].
    destruct (pair_dec (l, j) (k, i)) as [X|X]; [exact X|]. exfalso. pose proof Hl as Hlin. apply is_face_in in Hlin.
    destruct (nb_cases ne nemax tet adj good_mesh (l, j) Hlin) as [Z1|([m n] & Hm & Nm & E1 & E2 & Km)].
    + apply (fit_max _ _ _ Fadj k i l j); try apply Hf; try apply Hl; auto. apply coin_key; [apply Hf|apply Hl|exact C].
    + destruct (g_conf _ _ _ _ good_mesh (k, i) (l, j) (m, n) Hin Hlin Hm C (eq_trans C Km)) as [Y|[Y|Y]]; [congruence| |congruence].
      rewrite Y in Z0. rewrite Z0 in E2. cbn [fst snd] in E2. destruct Hl. lia.
  - right. apply is_face_in in Hg. cbn [fst snd] in *. exists l, j. rewrite (is_b_nb ne tet adj (k, i) (l, j)) in B; [|apply is_face_in; exact Hg|exact E1].
    cbn [fst] in B. apply Z.ltb_lt in B. destruct Hg as [Hl Hj]. destruct (enc4 l j) as (Q & _ & N); [lia|lia|].
    split; [|split; [exact B|split; [rewrite E1; exact N|rewrite E1; exact Q]]].
    split; [exact Hf|]. split; [split; assumption|]. split; [|lia]. apply coin_key; [apply Hf|exact Hj|exact Kg].
Qed.

Lemma bd_iff k i : is_face ne k i -> (bdface ne tet k i <-> exists f, In f (all_faces ne) /\ is_b tet adj f = true /\ kof tet f = kof tet (k, i)).
Proof.
  intros Hf. pose proof Hf as Hin. apply is_face_in in Hin. split.
  - intros [[_ O]|(l & j & _ & Hl & C & R)].
    + exists (k, i). split; [exact Hin|]. split; [|reflexivity].
      destruct (nb_cases ne nemax tet adj good_mesh (k, i) Hin) as [Z0|([l j] & Hg & Ng & E1 & E2 & Kg)].
      * unfold is_b. rewrite Z0. reflexivity.
      * exfalso. apply Ng. apply is_face_in in Hg. apply O; [exact Hg|]. apply coin_key; [apply Hf|apply Hg|exact Kg].
    + apply coin_key in C; [|apply Hf|apply Hl]. pose proof Hl as Hlin. apply is_face_in in Hlin.
      destruct (nb_cases ne nemax tet adj good_mesh (k, i) Hin) as [Z0|([l' j'] & Hg & Ng & E1 & E2 & Kg)].
      * exists (k, i). split; [exact Hin|]. split; [|reflexivity]. unfold is_b. rewrite Z0. reflexivity.
      * assert (X : (l', j') = (l, j)).
        { destruct (g_conf _ _ _ _ good_mesh (k, i) (l, j) (l', j') Hin Hlin Hg C Kg) as [Y|[Y|Y]]; [|congruence|auto].
          assert (k = l) by congruence. subst. congruence. }
        injection X as -> ->.
        destruct (Z.lt_total (tref (aget tet k)) (tref (aget tet l))) as [L|[L|L]]; [|contradiction|].
        -- exists (l, j). split; [exact Hlin|]. split; [|symmetry; exact Kg].
           rewrite (is_b_nb ne tet adj (l, j) (k, i) Hin E2). apply Z.ltb_lt. exact L.
        -- exists (k, i). split; [exact Hin|]. split; [|reflexivity].
           rewrite (is_b_nb ne tet adj (k, i) (l, j) Hlin E1). apply Z.ltb_lt. exact L.
  - intros ([l j] & Hl & B & E). apply is_face_in in Hl. destruct (is_b_cases l j Hl B) as [[[_ O] _]|(m & n & (_ & Hm & C & R) & L & _)].
    + assert (X : (k, i) = (l, j)). { apply O; [exact Hf|]. apply coin_key; [apply Hl|apply Hf|exact E]. }
      injection X as -> ->. left. split; assumption.
    + right. apply coin_key in C; [|apply Hl|apply Hm].
      destruct (pair_dec (k, i) (l, j)) as [X|X].
      * injection X as -> ->. exists m, n. split; [exact Hf|]. split; [exact Hm|]. split; [|exact R]. apply coin_key; [apply Hf|apply Hm|exact C].
      * assert (Y : (k, i) = (m, n)).
        { pose proof Hl as Hlin. pose proof Hm as Hmin. apply is_face_in in Hlin, Hmin.
          destruct (g_conf _ _ _ _ good_mesh (l, j) (k, i) (m, n) Hlin Hin Hmin E C) as [Y|[Y|Y]]; [congruence| |exact Y].
          exfalso. assert (l = m) by congruence. subst. congruence. }
        injection Y as -> ->. exists l, j. split; [exact Hf|]. split; [exact Hl|]. split; [|auto]. apply coin_key; [apply Hf|apply Hl|congruence].
Qed.

Lemma tri_pos k : 1 <= k <= nt -> trok (aget tri k).
Proof.
  intros Hk. pose proof (fun v => io_tri _ _ _ _ _ _ IO k v Hk) as H. unfold trok.
  pose proof (H (ba (aget tri k))). pose proof (H (bb (aget tri k))). pose proof (H (bc (aget tri k))). cbn [In] in *. intuition lia.
Qed.

Lemma etab_iff k : some (lk (etab ne tet adj opn) (keyn tri k)) = true <->
  exists l i, is_face ne l i /\ covers (aget tri k) (aget tet l) i /\ (opn = true \/ bdface ne tet l i).
Proof.
  assert (G : some (lk (etab ne tet adj opn) (keyn tri k)) = true <-> exists f, In f (all_faces ne) /\ hs tet adj opn f = true /\ kof tet f = keyn tri k).
  { split.
    - destruct (lk (etab ne tet adj opn) (keyn tri k)) as [v|] eqn:F; [|discriminate]. intros _. apply etab_val in F.
      destruct F as (f & A & B & _ & C). exists f. auto.
    - intros (f & A & B & C). destruct (lk (etab ne tet adj opn) (keyn tri k)) as [v|] eqn:F; [reflexivity|]. exfalso.
      apply (proj1 (lk_none _ _) F (4 * fst f + snd f)). unfold etab, ftab. apply in_map_iff. exists f. split; [congruence|]. apply filter_In. auto. }
  rewrite G. split.
  - intros ([l i] & Hl & S & E). exists l, i. apply is_face_in in Hl. split; [exact Hl|]. split; [apply covers_key; [apply Hl|exact E]|].
    unfold hs in S. destruct opn; [left; reflexivity|]. right. cbn [orb] in S. apply bd_iff; [exact Hl|]. exists (l, i).
    split; [apply is_face_in; exact Hl|]. auto.
  - intros (l & i & Hl & C & D). apply covers_key in C; [|apply Hl]. destruct opn eqn:Eo.
    + exists (l, i). split; [apply is_face_in; exact Hl|]. split; [reflexivity|exact C].
    + destruct D as [D|D]; [discriminate|]. apply bd_iff in D; [|exact Hl]. destruct D as (f & A & B & E). exists f.
      split; [exact A|]. split; [unfold hs; rewrite B; reflexivity|]. unfold keyn. congruence.
Qed.

Lemma kl_wanted k : In k (kl ne tet adj opn nt tri) <-> wanted opn ne tet nt tri k.
Proof.
  unfold kl. rewrite filter_In, in_zrange. unfold keepb. rewrite andb_true_iff, etab_iff, negb_true_iff. unfold wanted.
  assert (S : some (lk (seen tri k) (keyn tri k)) = false <-> forall j, 1 <= j < k -> ~ same_tri (aget tri j) (aget tri k)).
  { destruct (lk (seen tri k) (keyn tri k)) as [v|] eqn:F; cbn [some].
    - split; [discriminate|]. intros H. exfalso. apply lk_some, seen_pos in F. destruct F as [F1 F2]. apply (H v F1). apply same_key. exact F2.
    - split; [|reflexivity]. intros _ j Hj C. apply same_key in C. apply (proj1 (lk_none _ _) F j). unfold seen. apply in_map_iff. exists j.
      split; [unfold keyn; congruence|]. apply in_zrange. lia. }
  rewrite S. tauto.
Qed.

Lemma sorted_zrange_filter p : StronglySorted Z.lt (filter p (zrange 1 nt)).
Proof.
  assert (G : forall n lo, StronglySorted Z.lt (filter p (map (fun i => lo + Z.of_nat i) (seq 0 n)))).
  { induction n as [|n IH]; intros lo; cbn [seq map filter]; [constructor|].
    assert (E : map (fun i => lo + Z.of_nat i) (seq 1 n) = map (fun i => (lo + 1) + Z.of_nat i) (seq 0 n)).
    { rewrite <- seq_shift, map_map. apply map_ext. intros i. lia. }
    rewrite E. destruct (p _); [|apply IH]. constructor; [apply IH|]. apply Forall_forall. intros x Hx. apply filter_In in Hx. destruct Hx as [Hx _].
    apply in_map_iff in Hx. destruct Hx as (i & <- & _). lia. }
  apply G.
Qed.
End Link.

(** ** C33 *)

(** C33. Deleting the flagged triangles of any list leaves the other ones, once
    each, in their order. *)
Theorem C33_delete : forall nt tri, 0 <= nt < alen tri ->
  exists n tri', delete_extra nt tri = Ret (n, tri') /\
    map (aget tri') (zrange 1 n) = filter (fun t => 0 <? ba t) (map (aget tri) (zrange 1 nt)).
Proof.
  intros nt tri H. destruct (delete_ok nt tri H tri ltac:(lia)) as (a' & E & T & _). eexists. exists a'. split; [exact E|]. exact T.
Qed.
Print Assumptions C33_delete.

(** Steps 2, 2.5 and deletion *)
Definition prune (opn : bool) (ge : grants) (gs : Z -> Z) (ntmesh nt ne : Z) (tet : arr tetra) (adj : arr Z) (tri : arr btri) : outcome (Z * arr btri) :=
  '(_, elt) <- hash_bdry opn ge ntmesh ne tet adj ;;
  '(_, tri1, _) <- flag_extra opn gs nt tet adj elt tri 0 ;;
  delete_extra nt tri1.

(** C33. When memory can be found, the triangles given several times and those
    that lie on no boundary are discarded, the others are kept in their order. *)
Theorem C33_prune : forall opn inival ne nemax tet nt tri np ge gs ntmesh,
  input_ok ne nemax tet nt tri np -> 4 * ne < inival -> 0 <= ntmesh ->
  (forall k i, 1 <= ge k i) -> (forall k, 1 <= gs k) ->
  exists adj n tri', hashTetra inival ne nemax tet = Ret adj /\
    prune opn ge gs ntmesh nt ne tet adj tri = Ret (n, tri') /\ lists_wanted opn ne tet nt tri n tri'.
Proof.
  intros opn inival ne nemax tet nt tri np ge gs ntmesh IO Hi Hm G1 G2.
  destruct (C04_adjacency inival ne nemax tet (io_pk _ _ _ _ _ _ IO) Hi) as (adj & E & L & F).
  pose proof (good_mesh ne nemax tet nt tri np IO adj L F) as OK.
  assert (Hnt : 0 <= nt < alen tri) by (rewrite (io_len _ _ _ _ _ _ IO); pose proof (io_nt _ _ _ _ _ _ IO); lia).
  pose proof (tri_pos _ _ _ _ _ _ IO) as Hp.
  destruct (hash_ok ne nemax tet adj OK opn ge ntmesh Hm G1) as (h & Eh & Rh).
  destruct (flag_ok ne nemax tet adj OK opn nt tri Hnt Hp gs h Rh G2) as (t1 & E1 & L1 & H1).
  destruct (delete_ok nt tri Hnt t1 ltac:(lia)) as (a & E2 & T2 & _).
  assert (Tl : tlist nt t1 = map (flagged ne tet adj opn tri) (zrange 1 nt)).
  { unfold tlist. apply map_ext_in. intros k Hk. apply in_zrange in Hk. apply H1. lia. }
  rewrite Tl, (filter_flagged ne tet adj opn nt tri Hp), map_length in *.
  exists adj. eexists. exists a. split; [exact E|]. unfold prune. rewrite Eh. cbn [bind]. rewrite E1. cbn [bind]. split; [exact E2|].
  exists (kl ne tet adj opn nt tri). split; [apply sorted_zrange_filter|]. split; [reflexivity|]. split; [intros k; apply kl_wanted with (nemax := nemax) (np := np); auto|].
  intros x Hx. assert (X : nth (Z.to_nat (x - 1)) (tlist (Z.of_nat (length (kl ne tet adj opn nt tri))) a) btri0 = aget a x).
  { unfold tlist. rewrite nth_indep with (d' := aget a 0) by (rewrite map_length; unfold zrange; rewrite map_length, seq_length; lia).
    rewrite map_nth. f_equal. unfold zrange. rewrite nth_indep with (d' := 1 + Z.of_nat 0) by (rewrite map_length, seq_length; lia).
    rewrite (map_nth (fun i => 1 + Z.of_nat i)), seq_nth by lia. lia. }
  rewrite <- X, T2. rewrite nth_indep with (d' := kt ne tet adj opn tri 0) by (rewrite map_length; lia). rewrite map_nth.
  repeat split.
Qed.
Print Assumptions C33_prune.

(** ** C42 *)

(** The triangles [a[1..m]] and tags [p] after the check. *)
Record boundary_list (opn : bool) (iref : Z -> Z -> Z) (ne : Z) (tet : arr tetra) (nt : Z) (tri : arr btri) (p0 : arr Z)
       (m : Z) (a : arr btri) (p : arr Z) : Prop := {
  (* each triangle lies on the face recorded in [cc], a boundary one unless open boundaries are preserved *)
  bl_on : forall x, 1 <= x <= m -> exists k i, is_face ne k i /\ covers (aget a x) (aget tet k) i /\
     bcc (aget a x) = 4 * k + i /\ (opn = false -> bdface ne tet k i);
  (* each boundary face has a triangle *)
  bl_all : forall k i, bdface ne tet k i -> exists x, 1 <= x <= m /\ covers (aget a x) (aget tet k) i;
  (* and no more than one *)
  bl_once : forall x y, 1 <= x <= m -> 1 <= y <= m -> same_tri (aget a x) (aget a y) -> x = y;
  (* the wanted triangles of the user come first; the others are made from the mesh *)
  bl_user : exists n, 0 <= n <= m /\ lists_wanted opn ne tet nt tri n a /\
     forall x, n < x <= m -> exists k i, bdface ne tet k i /\ made ne tet iref k i (aget a x) /\
        forall j, 1 <= j <= nt -> ~ covers (aget tri j) (aget tet k) i;
  (* the vertices of the triangles, and no other ones, are marked *)
  bl_tag : alen p = alen p0 /\ forall v,
     ((exists x, 1 <= x <= m /\ In v [ba (aget a x); bb (aget a x); bc (aget a x)]) -> aget p v = Z.lor (aget p0 v) 16) /\
     ((forall x, 1 <= x <= m -> ~ In v [ba (aget a x); bb (aget a x); bc (aget a x)]) -> aget p v = aget p0 v) }.

Lemma nth_tlist m a x : 1 <= x <= m -> nth (Z.to_nat (x - 1)) (tlist m a) btri0 = aget a x.
Proof.
  intros Hx. unfold tlist. rewrite nth_indep with (d' := aget a 0) by (rewrite map_length; unfold zrange; rewrite map_length, seq_length; lia).
  rewrite map_nth. f_equal. unfold zrange. rewrite nth_indep with (d' := 1 + Z.of_nat 0) by (rewrite map_length, seq_length; lia).
  rewrite (map_nth (fun i => 1 + Z.of_nat i)), seq_nth by lia. lia.
Qed.

(** C42. When memory can be found, the check of the boundary of any packed
    manifold mesh, with any list of triangles, ends without undefined behaviour
    with a list that covers the boundary exactly once. *)
Theorem C42_boundary : forall opn iso iref inival ne nemax tet nt tri np ge gs gt p0,
  input_ok ne nemax tet nt tri np -> 4 * ne < inival -> np < alen p0 ->
  (forall k i, 1 <= ge k i) -> (forall k, 1 <= gs k) -> (forall k, 1 <= gt k) ->
  exists adj a m p, hashTetra inival ne nemax tet = Ret adj /\
    chk_bdry opn iso iref ge gs gt nt ne tet adj tri p0 = Ret (1, a, m, p) /\ m < alen a /\
    boundary_list opn iref ne tet nt tri p0 m a p.
Proof.
  intros opn iso iref inival ne nemax tet nt tri np ge gs gt p0 IO Hi Hnp G1 G2 G3.
  destruct (C04_adjacency inival ne nemax tet (io_pk _ _ _ _ _ _ IO) Hi) as (adj & E & L & F).
  pose proof (good_mesh ne nemax tet nt tri np IO adj L F) as OK.
  assert (Hnt : 0 <= nt < alen tri) by (rewrite (io_len _ _ _ _ _ _ IO); pose proof (io_nt _ _ _ _ _ _ IO); lia).
  pose proof (tri_pos _ _ _ _ _ _ IO) as Hp.
  destruct (chk_ok ne nemax tet adj OK opn nt tri Hnt Hp iref iso ge gs gt p0) as (a & p & m & Ec & Tm & Em & La & Tg); auto.
  { exact (io_len _ _ _ _ _ _ IO). }
  { intros k v Hk Hv. pose proof (io_tri _ _ _ _ _ _ IO k v Hk Hv). lia. }
  { intros k i Hk Hv. pose proof (io_tet _ _ _ _ _ _ IO k i (conj Hk Hv)). lia. }
  exists adj, a, m, p. split; [exact E|]. split; [exact Ec|]. split; [exact La|].
  set (K := kl ne tet adj opn nt tri) in *. set (M := missing ne tet adj opn nt tri) in *.
  assert (KW : forall k, In k K <-> wanted opn ne tet nt tri k) by (intros k; apply kl_wanted with (nemax := nemax) (np := np); auto).
  assert (At : forall x, 1 <= x <= m -> In (aget a x) (map (kt ne tet adj opn tri) K ++ map (newt tet adj iref) M)).
  { intros x Hx. rewrite <- Tm. apply in_tlist. exact Hx. }
  assert (MI : forall k i, In (k, i) M -> is_face ne k i /\ is_b tet adj (k, i) = true /\ forall j, In j K -> keyn tri j <> kof tet (k, i)).
  { intros k i H. unfold M, missing in H. apply filter_In in H. destruct H as [H1 H2]. apply andb_true_iff in H2. destruct H2 as [H2 H3].
    split; [apply is_face_in; exact H1|]. split; [exact H2|]. intros j Hj Ej. apply negb_true_iff in H3.
    assert (X : existsb (fun k0 => keyb (keyn tri k0) (kof tet (k, i))) K = true) by (apply existsb_exists; exists j; split; [exact Hj|apply keyb_ok; exact Ej]).
    unfold K in X. congruence. }
  assert (In_x : forall t, In t (map (kt ne tet adj opn tri) K ++ map (newt tet adj iref) M) -> exists x, 1 <= x <= m /\ aget a x = t).
  { intros t H. rewrite <- Tm in H. unfold tlist in H. apply in_map_iff in H. destruct H as (x & Ex & Hx). apply in_zrange in Hx. exists x. split; [lia|exact Ex]. }
  assert (Nk : NoDup (map key (tlist m a))).
  { rewrite Tm, map_app. apply NoDup_app_intro.
    - rewrite key_kt. pose proof (nodup_keys ne tet adj opn nt tri Hnt (fun _ => true)) as N.
      assert (Ef : forall A (l : list A), filter (fun _ => true) l = l) by (induction l; cbn; congruence). rewrite Ef in N. exact N.
    - rewrite map_map. change (fun x => key (newt tet adj iref x)) with (kof tet).
      assert (N : NoDup M) by (apply NoDup_filter, nodup_faces).
      assert (I : forall f, In f M -> In f (all_faces ne) /\ is_b tet adj f = true).
      { intros [k i] H. apply MI in H. destruct H as (H1 & H2 & _). split; [apply is_face_in; exact H1|exact H2]. }
      revert N I. generalize M. induction M0 as [|x l IH]; intros N I; cbn [map]; [constructor|].
      inversion N as [|? ? Nx Nl]; subst. constructor; [|apply IH; [exact Nl|intros f Hf; apply I; right; exact Hf]].
      intros H. apply in_map_iff in H. destruct H as (y & Ey & Hy). destruct (I x (or_introl eq_refl)), (I y (or_intror Hy)).
      assert (x = y) by (apply (same_b ne nemax tet adj OK); auto). subst. contradiction.
    - intros q H1 H2. rewrite key_kt in H1. rewrite map_map in H2. apply in_map_iff in H1. destruct H1 as (j & Ej & Hj).
      apply in_map_iff in H2. destruct H2 as ([k i] & Ek & Hk). destruct (MI k i Hk) as (_ & _ & N). apply (N j Hj).
      rewrite Ej, <- Ek. reflexivity. }
  constructor.
  - (* on *)
    intros x Hx. specialize (At x Hx). apply in_app_or in At. destruct At as [At|At]; apply in_map_iff in At.
    + destruct At as (k & <- & Hk). pose proof Hk as Hw. apply KW in Hw. destruct Hw as (_ & (l0 & i0 & Hl0 & C0 & D0) & _).
      unfold K, kl in Hk. apply filter_In in Hk. destruct Hk as [Hk Kb]. unfold keepb in Kb. apply andb_true_iff in Kb. destruct Kb as [Kb _].
      destruct (lk (etab ne tet adj opn) (keyn tri k)) as [v|] eqn:Fv; [|discriminate].
      destruct (etab_val ne tet adj opn tri k v Fv) as ([l i] & Hl & Sl & Ev & Kl). apply is_face_in in Hl.
      exists l, i. split; [exact Hl|]. split; [apply covers_key; [apply Hl|exact Kl]|]. split; [unfold kt; rewrite Fv; exact Ev|].
      intros Eo. unfold hs in Sl. rewrite Eo in Sl. cbn [orb] in Sl. apply (bd_iff ne nemax tet nt tri np IO adj L F l i Hl).
      exists (l, i). split; [apply is_face_in; exact Hl|auto].
    + destruct At as ([k i] & <- & Hk). destruct (MI k i Hk) as (Hf & B & _). exists k, i. split; [exact Hf|].
      split; [apply covers_key; [apply Hf|reflexivity]|]. split; [reflexivity|]. intros _.
      apply (bd_iff ne nemax tet nt tri np IO adj L F k i Hf). exists (k, i). split; [apply is_face_in; exact Hf|auto].
  - (* all *)
    intros k i B. assert (Hf : is_face ne k i) by (destruct B as [[X _]|(l & j & X & _)]; exact X).
    apply (bd_iff ne nemax tet nt tri np IO adj L F k i Hf) in B. destruct B as ([l j] & Hl & Bl & El).
    destruct (existsb (fun k0 => keyb (keyn tri k0) (kof tet (l, j))) K) eqn:X.
    + apply existsb_exists in X. destruct X as (k0 & Hk0 & X). apply keyb_ok in X.
      destruct (In_x (kt ne tet adj opn tri k0)) as (x & Hx & Ex); [apply in_or_app; left; apply in_map; exact Hk0|].
      exists x. split; [exact Hx|]. rewrite Ex. apply covers_key; [apply Hf|]. rewrite <- El, <- X. reflexivity.
    + destruct (In_x (newt tet adj iref (l, j))) as (x & Hx & Ex).
      { apply in_or_app. right. apply in_map. unfold M, missing. apply filter_In. split; [exact Hl|]. fold K. rewrite Bl, X. reflexivity. }
      exists x. split; [exact Hx|]. rewrite Ex. apply covers_key; [apply Hf|]. rewrite <- El. reflexivity.
  - (* once *)
    intros x y Hx Hy S. apply same_key in S. rewrite (NoDup_nth _ (key btri0)) in Nk.
    assert (Lm : length (map key (tlist m a)) = Z.to_nat m) by (rewrite map_length; unfold tlist, zrange; rewrite !map_length, seq_length; lia).
    specialize (Nk (Z.to_nat (x - 1)) (Z.to_nat (y - 1))). rewrite !map_nth, !nth_tlist in Nk by assumption.
    specialize (Nk ltac:(lia) ltac:(lia) S). lia.
  - (* user *)
    exists (Z.of_nat (length K)). split; [lia|]. split.
    + exists K. split; [apply sorted_zrange_filter|]. split; [reflexivity|]. split; [exact KW|].
      intros x Hx. rewrite <- (nth_tlist m a x) by lia. rewrite Tm, app_nth1 by (rewrite map_length; lia).
      rewrite nth_indep with (d' := kt ne tet adj opn tri 0) by (rewrite map_length; lia). rewrite map_nth. repeat split.
    + intros x Hx. assert (Y : In (aget a x) (map (newt tet adj iref) M)).
      { rewrite <- (nth_tlist m a x) by lia. rewrite Tm, app_nth2 by (rewrite map_length; lia). apply nth_In. rewrite !map_length. lia. }
      apply in_map_iff in Y. destruct Y as ([k i] & <- & Hk). destruct (MI k i Hk) as (Hf & B & N). exists k, i.
      assert (BF : bdface ne tet k i).
      { apply (bd_iff ne nemax tet nt tri np IO adj L F k i Hf). exists (k, i). split; [apply is_face_in; exact Hf|auto]. }
      split; [exact BF|]. split.
      * split; [reflexivity|]. split; [reflexivity|].
        destruct (is_b_cases ne nemax tet nt tri np IO adj L F k i Hf B) as [[O Z0]|(l & j & I & Lt & Nz & Q)].
        -- left. split; [exact O|]. unfold newt. cbn [bref fst]. rewrite Z0. reflexivity.
        -- right. exists l, j. split; [exact I|]. split; [exact Lt|]. unfold newt. cbn [bref fst]. apply Z.eqb_neq in Nz. rewrite Nz, Q. reflexivity.
      * intros j Hj C. pose proof C as Cj. apply covers_key in Cj; [|apply Hf].
        (* the first triangle with these vertices is wanted *)
        assert (First : exists j0, 1 <= j0 <= j /\ keyn tri j0 = kof tet (k, i) /\ forall j1, 1 <= j1 < j0 -> keyn tri j1 <> kof tet (k, i)).
        { assert (G : forall n : nat, (exists j0, 1 <= j0 <= Z.of_nat n /\ keyn tri j0 = kof tet (k, i) /\ forall j1, 1 <= j1 < j0 -> keyn tri j1 <> kof tet (k, i)) \/
              (forall j1, 1 <= j1 <= Z.of_nat n -> keyn tri j1 <> kof tet (k, i))).
          { induction n as [|n IH]; [right; intros; lia|]. destruct IH as [(j0 & A & A1 & A2)|IH]; [left; exists j0; split; [lia|auto]|].
            destruct (keyb (keyn tri (Z.of_nat (S n))) (kof tet (k, i))) eqn:Q.
            - left. exists (Z.of_nat (S n)). split; [lia|]. split; [apply keyb_ok; exact Q|]. intros j1 H1. apply IH. lia.
            - right. intros j1 H1. destruct (Z.eq_dec j1 (Z.of_nat (S n))) as [->|]; [|apply IH; lia]. intros X. apply keyb_ok in X. congruence. }
          destruct (G (Z.to_nat j)) as [(j0 & A & A1 & A2)|H]; [exists j0; split; [lia|auto]|]. exfalso. apply (H j); [lia|]. unfold keyn. congruence. }
        destruct First as (j0 & Hj0 & Ej0 & Fj0). apply (N j0); [|exact Ej0]. apply KW. split; [lia|]. split.
        -- exists k, i. split; [exact Hf|]. split; [apply covers_key; [apply Hf|symmetry; exact Ej0]|]. right. exact BF.
        -- intros j1 Hj1 Sm. apply same_key in Sm. apply (Fj0 j1 Hj1). unfold keyn in *. congruence.
  - (* tags *)
    destruct Tg as [T1 T2]. split; [exact T1|]. intros v.
    assert (Iv : In v (flat_map vs (tlist m a)) <-> exists x, 1 <= x <= m /\ In v [ba (aget a x); bb (aget a x); bc (aget a x)]).
    { rewrite in_flat_map. split.
      - intros (t & Ht & Hv). unfold tlist in Ht. apply in_map_iff in Ht. destruct Ht as (x & <- & Hx). apply in_zrange in Hx. exists x. split; [lia|exact Hv].
      - intros (x & Hx & Hv). exists (aget a x). split; [apply in_tlist; exact Hx|exact Hv]. }
    rewrite T2. split; intros H.
    + apply Iv, existsb_in in H. rewrite H. reflexivity.
    + destruct (existsb (Z.eqb v) (flat_map vs (tlist m a))) eqn:X; [|reflexivity]. apply existsb_in, Iv in X. destruct X as (x & Hx & Hv). exfalso. exact (H x Hx Hv).
Qed.
Print Assumptions C42_boundary.

(** ** Cases *)

(** Decision of the input conditions *)
Definition inputb (ne nemax : Z) (tet : arr tetra) (nt : Z) (tri : arr btri) (np : Z) : bool :=
  (0 <=? ne) && (ne <=? nemax) && (alen tet =? nemax + 1) &&
  forallb (fun k => forallb (fun i => (0 <? tv (aget tet k) i) && (tv (aget tet k) i <=? np)) [0; 1; 2; 3]) (zrange 1 ne) &&
  forallb (fun f => forallb (fun g => negb (keyb (kof tet f) (kof tet g)) ||
     forallb (fun h => negb (keyb (kof tet f) (kof tet h)) ||
        ((fst f =? fst g) && (snd f =? snd g) || (fst f =? fst h) && (snd f =? snd h) || (fst g =? fst h) && (snd g =? snd h)))
       (all_faces ne)) (all_faces ne)) (all_faces ne) &&
  (0 <=? nt) && (alen tri =? nt + 1) &&
  forallb (fun k => forallb (fun v => (1 <=? v) && (v <=? np)) (vs (aget tri k))) (zrange 1 nt).
Lemma inputb_ok ne nemax tet nt tri np : inputb ne nemax tet nt tri np = true -> input_ok ne nemax tet nt tri np.
Proof.
  unfold inputb. rewrite !andb_true_iff, !Z.leb_le, !Z.eqb_eq, !forallb_forall. intros [[[[[[[A1 A2] A3] A4] A5] A6] A7] A8].
  assert (V : forall k i, 1 <= k <= ne -> 0 <= i < 4 -> 0 < tv (aget tet k) i <= np).
  { intros k i Hk Hi. specialize (A4 k ltac:(apply in_zrange; lia)). rewrite forallb_forall in A4. specialize (A4 i ltac:(cbn; lia)).
    apply andb_true_iff in A4. rewrite Z.ltb_lt, Z.leb_le in A4. exact A4. }
  constructor.
  - split; [lia|]. split; [exact A3|]. intros k Hk i Hi. apply V; auto.
  - intros k i l j m n H1 H2 H3 C1 C2. apply coin_key in C1; [|apply H1|apply H2]. apply coin_key in C2; [|apply H1|apply H3].
    apply is_face_in in H1, H2, H3. specialize (A5 _ H1). rewrite forallb_forall in A5. specialize (A5 _ H2). apply keyb_ok in C1, C2. rewrite C1 in A5.
    cbn [negb orb] in A5. rewrite forallb_forall in A5. specialize (A5 _ H3). rewrite C2 in A5. cbn [negb orb fst snd] in A5.
    rewrite !orb_true_iff, !andb_true_iff, !Z.eqb_eq in A5. rewrite !pair_equal_spec. intuition congruence.
  - intros k i [Hk Hi]. apply V; auto.
  - exact A6.
  - exact A7.
  - intros k v Hk Hv. specialize (A8 k ltac:(apply in_zrange; lia)). rewrite forallb_forall in A8. specialize (A8 v Hv).
    apply andb_true_iff in A8. rewrite !Z.leb_le in A8. exact A8.
Qed.

(** Three tetrahedra around the edge 1-2, the third one of reference 2, and a
    fourth one apart.  Triangles of the user: one on the boundary; a copy of it;
    one on the interface; one inside the domain of reference 1; one on no face. *)
Definition bt : arr tetra := aof tetra0 [mkT 1 2 3 4 1 0 0 0; mkT 1 2 4 5 1 0 0 0; mkT 2 1 3 5 2 0 0 0; mkT 7 8 9 6 1 0 0 0].
Definition bu : arr btri := aof btri0 [mkB 3 1 4 7 0 5; mkB 4 3 1 8 0 6; mkB 1 3 2 9 0 0; mkB 1 2 4 11 0 0; mkB 7 8 5 12 0 0].
Example C42_case_hyps : input_ok 4 4 bt 5 bu 9.
Proof. apply inputb_ok. vm_compute. reflexivity. Qed.
Definition run opn g : option (list btri * list Z) :=
  match hashTetra 1000 4 4 bt with
  | Ret adj => match chk_bdry opn false Z.min (fun _ _ => g) (fun _ => 1) (fun _ => 1) 5 4 bt adj bu (acalloc 12 1) with
               | Ret (_, a, m, p) => Some (map (aget a) (zrange 1 m), map (aget p) (zrange 1 11)) | Stuck => None end
  | Stuck => None end.
Example C42_case : run false 1 = Some
  ([mkB 3 1 4 7 5 5; mkB 1 3 2 9 15 0; mkB 2 3 4 1 4 0; mkB 2 4 5 1 8 0; mkB 1 5 4 1 9 0; mkB 1 3 5 2 12 0; mkB 2 5 3 2 13 0; mkB 2 1 5 1 14 0;
    mkB 8 9 6 1 16 0; mkB 7 6 9 1 17 0; mkB 7 8 6 1 18 0; mkB 7 9 8 1 19 0], [17; 17; 17; 17; 17; 17; 17; 17; 17; 1; 1]).
Proof. vm_compute. reflexivity. Qed.
Example C42_case_open : run true 1 = Some
  ([mkB 3 1 4 7 5 5; mkB 1 3 2 9 7 0; mkB 1 2 4 11 6 0; mkB 2 3 4 1 4 0; mkB 2 4 5 1 8 0; mkB 1 5 4 1 9 0; mkB 1 3 5 2 12 0; mkB 2 5 3 2 13 0; mkB 2 1 5 1 14 0;
    mkB 8 9 6 1 16 0; mkB 7 6 9 1 17 0; mkB 7 8 6 1 18 0; mkB 7 9 8 1 19 0], [17; 17; 17; 17; 17; 17; 17; 17; 17; 1; 1]).
Proof. vm_compute. reflexivity. Qed.

(** ** When memory is missing *)

(** Ten tetrahedra around an edge, one triangle of the user on the boundary. *)
Definition ring : arr tetra := aof tetra0 (map (fun k => mkT 1 2 (2 + k) (2 + (if k =? 10 then 1 else k + 1)) 1 0 0 0) (zrange 1 10)).
Definition ringu : arr btri := aof btri0 [mkB 2 3 12 77 0 0].

(** When the memory limit prevents the table of faces from growing, the check
    drops triangles of the user and makes them again from the mesh, with another
    reference, and still reports success: the codes of its steps are not read. *)
Theorem C42_no_memory_refuted : exists adj a m p,
  input_ok 10 10 ring 1 ringu 12 /\ wanted true 10 ring 1 ringu 1 /\ bref (aget ringu 1) = 77 /\
  hashTetra 1000 10 10 ring = Ret adj /\
  chk_bdry true false Z.min (fun _ _ => 0) (fun _ => 1) (fun _ => 1) 1 10 ring adj ringu (acalloc 13 0) = Ret (1, a, m, p) /\
  (forall x, 1 <= x <= m -> bref (aget a x) = 1) /\ ~ lists_wanted true 10 ring 1 ringu 1 a.
Proof.
  destruct (hashTetra 1000 10 10 ring) as [adj|] eqn:Ea; [|vm_compute in Ea; discriminate].
  pose (r := match hashTetra 1000 10 10 ring with
             | Ret adj => chk_bdry true false Z.min (fun _ _ => 0) (fun _ => 1) (fun _ => 1) 1 10 ring adj ringu (acalloc 13 0)
             | Stuck => Stuck end).
  assert (R : (match r with
              | Ret (c, a, m, p) => (c =? 1) && (m =? 20) && forallb (fun x => bref (aget a x) =? 1) (zrange 1 m) | Stuck => false end) = true)
    by (vm_compute; reflexivity).
  unfold r in R. rewrite Ea in R.
  destruct (chk_bdry true false Z.min (fun _ _ => 0) (fun _ => 1) (fun _ => 1) 1 10 ring adj ringu (acalloc 13 0)) as [[[[c a] m] p]|] eqn:Ec; [|discriminate].
  rewrite !andb_true_iff, !Z.eqb_eq, forallb_forall in R. destruct R as [[-> ->] R].
  assert (Rf : forall x, 1 <= x <= 20 -> bref (aget a x) = 1) by (intros x Hx; apply Z.eqb_eq, R, in_zrange; lia).
  assert (W : wanted true 10 ring 1 ringu 1).
  { split; [lia|]. split; [|intros; lia]. exists 10, 0. split; [split; lia|]. split; [|left; reflexivity]. vm_compute. apply perm_skip, perm_swap. }
  exists adj, a, 20, p. split; [apply inputb_ok; vm_compute; reflexivity|]. split; [exact W|]. split; [reflexivity|]. split; [reflexivity|].
  split; [exact Ec|]. split; [exact Rf|].
  intros (ks & S & L & I & D). destruct ks as [|k [|]]; [discriminate| |cbn [length] in L; lia].
  apply I in W. destruct W as [->|[]]. specialize (D 1 ltac:(lia)). cbn in D. destruct D as (_ & _ & _ & D & _).
  rewrite Rf in D by lia. discriminate.
Qed.
Print Assumptions C42_no_memory_refuted.
