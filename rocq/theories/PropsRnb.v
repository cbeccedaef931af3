(** C22: the renumbering permutes the mesh in place without loss. *)
From Coq Require Import ZArith QArith List Lia Bool Permutation.
From Coq Require Import ZifyBool ZifyNat.
From Verif Require Import CBase Chain MeshModel PoolModel PackModel AdjaModel PropsAdja BdryProofs RnbModel RnbProofs.
Import ListNotations.
Open Scope Z_scope.

(** ** The loop alone *)

(** [p] lists a permutation of [1..n]. *)
Definition is_perm (n : Z) (p : arr Z) : Prop :=
  n < alen p /\ Permutation (map (aget p) (zrange 1 n)) (zrange 1 n).

Lemma is_perm_facts n p : is_perm n p ->
  (forall k, 1 <= k <= n -> 1 <= aget p k <= n) /\
  (forall k l, 1 <= k <= n -> 1 <= l <= n -> aget p k = aget p l -> k = l) /\
  (forall r, 1 <= r <= n -> exists k, 1 <= k <= n /\ aget p k = r).
Proof.
  intros [_ P]. split; [|split].
  - intros k Hk. apply in_zrange. apply (Permutation_in _ P). apply in_map. apply in_zrange. exact Hk.
  - intros k l Hk Hl E.
    assert (ND : NoDup (map (aget p) (zrange 1 n))).
    { apply (Permutation_NoDup (Permutation_sym P)). apply NoDup_zrange. }
    assert (Hk' : In k (zrange 1 n)) by (apply in_zrange; exact Hk).
    assert (Hl' : In l (zrange 1 n)) by (apply in_zrange; exact Hl).
    revert ND Hk' Hl' E. generalize (zrange 1 n). clear. intros z. induction z as [|x z IH]; [intros _ []|].
    cbn [map]. intros ND Hk Hl E. inversion ND as [|a b Nin ND']; subst.
    destruct Hk as [->|Hk], Hl as [->|Hl]; auto.
    + exfalso. apply Nin. rewrite E. apply in_map. exact Hl.
    + exfalso. apply Nin. rewrite <- E. apply in_map. exact Hk.
  - intros r Hr. assert (H : In r (map (aget p) (zrange 1 n))).
    { apply (Permutation_in _ (Permutation_sym P)). apply in_zrange. exact Hr. }
    apply in_map_iff in H. destruct H as [k [E H]]. exists k. split; [apply in_zrange; exact H | exact E].
Qed.

(** Any permutation, whatever its cycles: the loop ends, stays in bounds, and puts
    the element number [k] at the place [p k]. *)
Theorem C22_in_place : forall n (a : arr tetra) p,
  0 <= n < alen a -> is_perm n p ->
  exists a' p', permute n swap_tet a p = Ret (a', p') /\ alen a' = alen a /\
    (forall k, 1 <= k <= n -> aget a' (aget p k) = aget a k) /\
    (forall k, ~ 1 <= k <= n -> aget a' k = aget a k).
Proof.
  intros n a p Hn Hp. destruct (is_perm_facts n p Hp) as [F1 [F2 F3]].
  destruct (permute_ok _ swap_tet n (tetR n a) (tetR_swap n a ltac:(lia)) (aget p)) with (x := a) (p := p)
    as [a' [p' [o [E [[L [G G']] [O1 [O2 [O3 O4]]]]]]]].
  - intros k Hk. specialize (F1 k Hk). lia.
  - intros k l Hk Hl Eq _. apply F2; assumption.
  - lia.
  - apply Hp.
  - reflexivity.
  - split; [reflexivity|]. split; reflexivity.
  - exists a', p'. split; [exact E|]. split; [exact L|]. split; [|exact G'].
    intros k Hk. specialize (F1 k Hk). rewrite G by lia. rewrite O3; [reflexivity|exact Hk|lia].
Qed.
Print Assumptions C22_in_place.

(** A permutation with a cycle of length three, one of length two and a fixed point. *)
Example C22_in_place_case :
  let p := aof 0 [3; 5; 6; 4; 2; 1] in
  is_perm 6 p /\
  (' (a, _) <- permute 6 swap_tet (aof tetra0 (map (fun i => mkT i 0 0 0 0 0 0 0) [10; 20; 30; 40; 50; 60])) p ;;
   Ret (map (fun k => v0 (aget a k)) [1; 2; 3; 4; 5; 6])) = Ret [60; 50; 10; 40; 20; 30].
Proof.
  split.
  - split; [cbn; lia|]. change (zrange 1 6) with [1; 2; 3; 4; 5; 6].
    change (Permutation [3; 5; 6; 4; 2; 1] [1; 2; 3; 4; 5; 6]). apply NoDup_Permutation.
    + repeat constructor; cbn; intuition discriminate.
    + repeat constructor; cbn; intuition discriminate.
    + intros x. cbn. lia.
  - vm_compute. reflexivity.
Qed.

(** ** The whole renumbering *)

(** Vertices that survive: valid, and used by an element or required. *)
Definition used_by_tet (m : rmesh) (v : Z) : Prop :=
  exists k, 1 <= k <= rne m /\ v0 (aget (rtet m) k) <> 0 /\ let t := aget (rtet m) k in In v [v0 t; v1 t; v2 t; v3 t].
Definition used_by_prism (m : rmesh) (v : Z) : Prop :=
  exists k, 1 <= k <= rnpr m /\ 0 < hd 0 (aget (rpri m) k) /\ In v (aget (rpri m) k).
Definition kept (m : rmesh) (v : Z) : Prop :=
  1 <= v <= rnp m /\ vok (aget (rpt m) v) = true /\
  (used_by_tet m v \/ used_by_prism m v \/ Z.land (ptag (aget (rpt m) v)) MG_REQ <> 0).
Definition alive (m : rmesh) (k : Z) : Prop := 1 <= k <= rne m /\ v0 (aget (rtet m) k) <> 0.

(** Meshes handed to the renumbering: the elements that exist have valid vertices;
    there may be holes among elements and vertices. *)
Record rnb_ok (inival : Z) (m : rmesh) : Prop := {
  ro_np : 0 <= rnp m <= rnpmax m /\ alen (rpt m) = rnpmax m + 1;
  ro_ne : 0 <= rne m <= rnemax m /\ alen (rtet m) = rnemax m + 1 /\ 4 * rne m < inival;
  ro_tag : forall v, 1 <= v <= rnp m -> 0 <= ptag (aget (rpt m) v);
  ro_tet : forall v, used_by_tet m v -> 1 <= v <= rnp m /\ vok (aget (rpt m) v) = true;
  ro_pri : forall v, used_by_prism m v -> 1 <= v <= rnp m /\ vok (aget (rpt m) v) = true;
  ro_npr : 0 <= rnpr m < alen (rpri m) /\ forall k v, 1 <= k <= rnpr m -> In v (aget (rpri m) k) -> 0 <= v <= rnp m;
  ro_nq : 0 <= rnq m < alen (rquad m) /\ forall k v, 1 <= k <= rnq m -> In v (aget (rquad m) k) -> 0 <= v <= rnp m;
  ro_sol : Forall (fun f => 1 <= fsz f <= 9 /\ fsz f * (rnp m + 1) <= alen (fval f)) (rsol m);
  ro_glob : forall g, rglob m = Some g -> 0 <= rnpi m < alen g /\
    forall k, 1 <= k <= rnpi m -> 0 <= aget g k < alen (rpt m) /\ (vok (aget (rpt m) (aget g k)) = true -> kept m (aget g k))
}.

(** [f] numbers the elements of [P] from 1 to [n], without gap or repetition. *)
Definition numbers (P : Z -> Prop) (f : Z -> Z) (n : Z) : Prop :=
  (forall k, P k -> 1 <= f k <= n) /\
  (forall k l, P k -> P l -> f k = f l -> k = l) /\
  (forall r, 1 <= r <= n -> exists k, P k /\ f k = r).

(** The tetrahedron [t] with its vertices renamed; everything else is kept. *)
Definition renamed (s : Z -> Z) (t : tetra) : tetra :=
  mkT (s (v0 t)) (s (v1 t)) (s (v2 t)) (s (v3 t)) (tref t) (txt t) (tmark t) (tq t).

(** [m'] is [m] with its vertices renamed by [s], its elements by [e]. *)
Record renumbered (m m' : rmesh) (s e : Z -> Z) : Prop := {
  rn_vert : numbers (kept m) s (rnp m');
  rn_elt : numbers (alive m) e (rne m');
  rn_max : rnpmax m' = rnpmax m /\ rnemax m' = rnemax m /\ alen (rpt m') = alen (rpt m) /\ alen (rtet m') = alen (rtet m);
  rn_pt : forall v, kept m v -> aget (rpt m') (s v) = aget (rpt m) v;
  rn_sol : Forall2 (fun f f' => fsz f' = fsz f /\ alen (fval f') = alen (fval f) /\
     forall v c, kept m v -> 0 <= c < fsz f -> aget (fval f') (s v * fsz f + c) = aget (fval f) (v * fsz f + c))
     (rsol m) (rsol m');
  rn_tet : forall k, alive m k -> aget (rtet m') (e k) = renamed s (aget (rtet m) k);
  rn_hole : forall k, rne m' < k <= rne m -> v0 (aget (rtet m') k) = 0;
  rn_pri : rnpr m' = rnpr m /\ forall k, 1 <= k <= rnpr m ->
     (0 < hd 0 (aget (rpri m) k) -> aget (rpri m') k = map s (aget (rpri m) k)) /\
     (hd 0 (aget (rpri m) k) = 0 -> hd 0 (aget (rpri m') k) = 0);
  rn_quad : rnq m' = rnq m /\ forall k, 1 <= k <= rnq m -> (forall v, In v (aget (rquad m) k) -> kept m v) ->
     aget (rquad m') k = map s (aget (rquad m) k);
  rn_glob : match rglob m, rglob m' with
     | None, None => True
     | Some g, Some g' => forall k, 1 <= k <= rnpi m ->
         aget g' k = if vok (aget (rpt m) (aget g k)) then s (aget g k) else aget g k
     | _, _ => False
     end;
  rn_free_pt : chain (fun k => ptmp (aget (rpt m') k)) (rnpnil m') (zrange (rnp m' + 1) (rnpmax m' - 1));
  rn_free_tet : chain (fun k => v3 (aget (rtet m') k)) (rnenil m') (zrange (rne m' + 1) (rnemax m' - 1))
}.

Lemma ren_glob_ok perm npi pt g :
  0 <= npi < alen g ->
  (forall k, 1 <= k <= npi -> 0 <= aget g k < alen pt /\
     (vok (aget pt (aget g k)) = true -> 0 <= aget g k < alen perm /\ 0 < aget perm (aget g k))) ->
  exists g', ren_glob perm npi pt g = Ret g' /\
    forall k, 1 <= k <= npi -> aget g' k = if vok (aget pt (aget g k)) then aget perm (aget g k) else aget g k.
Proof.
  intros Hn H. unfold ren_glob.
  destruct (@for_range_inv (arr Z) (fun i b => alen b = alen g /\
     forall k, aget b k = if (1 <=? k) && (k <? i) then (if vok (aget pt (aget g k)) then aget perm (aget g k) else aget g k) else aget g k)
    (fun k glob => g <- rd glob k ;; p <- rd pt g ;;
    if vok p then x <- rd perm g ;; _ <- c_assert (0 <? x) ;; wr glob k x else Ret glob) 1 npi g) as [g' [E [L G]]].
  - lia.
  - split; [reflexivity|]. intros k. destruct (Z.leb_spec 1 k), (Z.ltb_spec k 1); try lia; reflexivity.
  - intros i b Hi [L G]. destruct (H i Hi) as [H1 H2]. rewrite rd_ok by lia. cbn [bind]. rewrite G.
    destruct (Z.ltb_spec i i); [lia|]. rewrite andb_false_r. rewrite rd_ok by lia. cbn [bind].
    destruct (vok (aget pt (aget g i))) eqn:Ev.
    + destruct (H2 eq_refl) as [H3 H4]. rewrite rd_ok by lia. cbn [bind]. unfold c_assert.
      destruct (Z.ltb_spec 0 (aget perm (aget g i))); [|lia]. cbn [bind]. rewrite wr_ok by lia.
      eexists. split; [reflexivity|]. cbn [alen aget]. split; [exact L|]. intros k. unfold upd.
      destruct (Z.eqb_spec k i) as [->|N].
      * destruct (Z.leb_spec 1 i), (Z.ltb_spec i (i + 1)); try lia. rewrite Ev. reflexivity.
      * rewrite G. destruct (Z.ltb_spec k i), (Z.ltb_spec k (i + 1)); try lia; reflexivity.
    + exists b. split; [reflexivity|]. split; [exact L|]. intros k. rewrite G.
      destruct (Z.eq_dec k i) as [->|N].
      * destruct (Z.ltb_spec i i), (Z.leb_spec 1 i), (Z.ltb_spec i (i + 1)); try lia. rewrite Ev. reflexivity.
      * destruct (Z.ltb_spec k i), (Z.ltb_spec k (i + 1)); try lia; reflexivity.
  - exists g'. split; [exact E|]. intros k Hk. rewrite G.
    destruct (Z.leb_spec 1 k), (Z.ltb_spec k (npi + 1)); try lia. reflexivity.
Qed.

(** Elements put in the order given by SCOTCH. *)
Lemma place_tets_ok ne tet ord :
  0 <= ne < alen tet -> is_perm (rank tet ne) ord ->
  exists old pl tet1 pl',
    tet_rank ne tet = Ret (old, rank tet ne) /\ tet_place ne tet ord old = Ret pl /\
    permute ne swap_tet tet pl = Ret (tet1, pl') /\ alen tet1 = alen tet /\ 0 <= rank tet ne <= ne /\
    (forall k, 1 <= k <= ne -> live (aget tet1 k) = (k <=? rank tet ne)) /\
    (forall k, 1 <= k <= ne -> live (aget tet k) = true ->
       1 <= aget ord (rank tet k) <= rank tet ne /\ aget tet1 (aget ord (rank tet k)) = aget tet k) /\
    (forall k, 1 <= k <= rank tet ne -> exists j, 1 <= j <= ne /\ live (aget tet j) = true /\
       aget ord (rank tet j) = k /\ aget tet1 k = aget tet j) /\
    (forall k l, 1 <= k <= ne -> 1 <= l <= ne -> live (aget tet k) = true -> live (aget tet l) = true ->
       aget ord (rank tet k) = aget ord (rank tet l) -> k = l).
Proof.
  intros Hne Hord. destruct (is_perm_facts _ _ Hord) as [P1 [P2 P3]].
  assert (Hcnt : 0 <= rank tet ne <= ne) by (split; [apply rank_pos | apply rank_le; lia]).
  destruct (tet_rank_ok ne tet) as [old [E1 [L1 G1]]]; [lia|].
  destruct (tet_place_ok ne tet ord old) as [pl [E2 [L2 G2]]]; [lia|exact L1|apply Hord|exact G1|].
  pose proof (fun k (Hk : 1 <= k <= ne) (Lk : live (aget tet k) = true) =>
     rank_lt tet 0 k ltac:(lia) ltac:(lia) Lk) as R1. rewrite rank0 in R1.
  assert (Hrk : forall k, 1 <= k <= ne -> live (aget tet k) = true -> 1 <= rank tet k <= rank tet ne).
  { intros k Hk Lk. specialize (R1 k Hk Lk). pose proof (rank_mono tet k ne ltac:(lia)). lia. }
  clear R1. remember (rank tet ne) as cnt eqn:Ecnt.
  assert (Hei : forall k l, 1 <= k <= ne -> 1 <= l <= ne -> live (aget tet k) = true -> live (aget tet l) = true ->
             aget ord (rank tet k) = aget ord (rank tet l) -> k = l).
  { intros k l Hk Hl Lk Ll Eq. apply P2 in Eq; [|apply Hrk; assumption|apply Hrk; assumption].
    destruct (Z.lt_trichotomy k l) as [C|[C|C]]; [|exact C|].
    - pose proof (rank_lt tet k l ltac:(lia) ltac:(lia) Ll). lia.
    - pose proof (rank_lt tet l k ltac:(lia) ltac:(lia) Lk). lia. }
  destruct (permute_ok _ swap_tet ne (tetR ne tet) (tetR_swap ne tet ltac:(lia))
     (fun k => if live (aget tet k) then aget ord (rank tet k) else 0))
    with (x := tet) (p := pl) as [tet1 [pl' [o [E3 [[LT [GT GT']] [O1 [O2 [O3 O4]]]]]]]].
  { intros k Hk. destruct (live (aget tet k)) eqn:Lk; [|lia]. pose proof (P1 _ (Hrk k Hk Lk)). lia. }
  { intros k l Hk Hl. destruct (live (aget tet k)) eqn:Lk; [|lia].
    destruct (live (aget tet l)) eqn:Ll; [|lia]. intros Eq _. apply Hei; assumption. }
  { lia. } { lia. } { exact G2. }
  { split; [reflexivity|]. split; reflexivity. }
  cbv beta in O3, O4.
  assert (Hoe : forall k, 1 <= k <= ne -> live (aget tet k) = true -> o (aget ord (rank tet k)) = k).
  { intros k Hk Lk. specialize (O3 k Hk). rewrite Lk in O3. apply O3. pose proof (P1 _ (Hrk k Hk Lk)). lia. }
  assert (Hsurj : forall r, 1 <= r <= cnt -> exists k, 1 <= k <= ne /\ live (aget tet k) = true /\ aget ord (rank tet k) = r).
  { intros r Hr. destruct (P3 r Hr) as [q [Hq Eq]]. rewrite Ecnt in Hq.
    destruct (rank_surj tet ne q ltac:(lia) Hq) as [k [A [B C]]].
    exists k. split; [exact A|]. split; [exact B|]. rewrite C. exact Eq. }
  exists old, pl, tet1, pl'. split; [exact E1|]. split; [exact E2|]. split; [exact E3|]. split; [exact LT|].
  split; [exact Hcnt|]. split; [|split; [|split; [|exact Hei]]].
  - intros k Hk. rewrite GT by exact Hk. destruct (Z.leb_spec k cnt) as [Hle|Hgt].
    + destruct (Hsurj k ltac:(lia)) as [j [A [B C]]]. rewrite <- C, Hoe by assumption. exact B.
    + destruct (live (aget tet (o k))) eqn:Lk; [|reflexivity]. exfalso.
      specialize (O4 k Hk). rewrite Lk in O4. pose proof (P1 _ (Hrk (o k) (O1 k Hk) Lk)). lia.
  - intros k Hk Lk. pose proof (P1 _ (Hrk k Hk Lk)) as R. split; [exact R|]. rewrite GT by lia. rewrite Hoe by assumption. reflexivity.
  - intros k Hk. destruct (Hsurj k Hk) as [j [A [B C]]]. exists j. split; [exact A|]. split; [exact B|]. split; [exact C|].
    rewrite GT by lia. rewrite <- C, Hoe by assumption. reflexivity.
Qed.

(** Vertices and solutions put at their new place. *)
Lemma place_nods_ok np npmax pt sol perm np' S :
  0 <= np <= npmax -> alen pt = npmax + 1 -> Forall (field_ok np) sol -> NI np S (perm, np') ->
  exists pt2 sol2 perm' nil pt3,
    permute np swap_nod (pt, sol) perm = Ret ((pt2, sol2), perm') /\
    relink_pts np' npmax pt2 = Ret (nil, pt3) /\ alen pt3 = alen pt /\
    (forall v, 1 <= v <= np -> S v -> aget pt3 (aget perm v) = aget pt v) /\
    Forall2 (fun f f' => fsz f' = fsz f /\ alen (fval f') = alen (fval f) /\
      forall v c, 1 <= v <= np -> S v -> 0 <= c < fsz f -> aget (fval f') (aget perm v * fsz f + c) = aget (fval f) (v * fsz f + c)) sol sol2 /\
    chain (fun k => ptmp (aget pt3 k)) nil (zrange (np' + 1) (npmax - 1)).
Proof.
  intros Hnp Lpt Hsol N. pose proof (NI_le np S perm np' (proj1 Hnp) N) as Hle.
  pose proof (ni_len _ _ _ N) as Lp. pose proof (ni_pos _ _ _ N) as Hp. cbn [fst snd] in Lp, Hp.
  destruct (permute_ok _ swap_nod np (nodR np pt sol) (nodR_swap np pt sol ltac:(lia) Hsol) (aget perm))
    with (x := (pt, sol)) (p := perm) as [[pt2 sol2] [perm' [q [E9 [[LP [GP [GP' GS]]] [Q1 [Q2 [Q3 Q4]]]]]]]].
  { intros k Hk. destruct (ni_val _ _ _ N k Hk) as [Z0|R]; cbn [fst snd] in *; lia. }
  { exact (ni_inj _ _ _ N). }
  { lia. } { lia. } { reflexivity. }
  { split; [reflexivity|]. split; [reflexivity|]. split; [reflexivity|]. cbn [snd].
    clear. induction sol as [|f l IH]; constructor; [|exact IH]. split; [reflexivity|]. split; reflexivity. }
  cbn [fst snd] in LP, GP, GP', GS.
  destruct (relink_pts_ok np' npmax pt2) as [npnil [pt3 [E10 [L10 [G10 C10]]]]]; [lia|lia|].
  assert (Hq : forall v, 1 <= v <= np -> S v -> 1 <= aget perm v <= np' /\ q (aget perm v) = v).
  { intros v Hv Sv. apply (ni_set _ _ _ N v Hv) in Sv. cbn [fst] in Sv. split; [|apply Q3; assumption].
    destruct (ni_val _ _ _ N v Hv) as [Z0|R]; [contradiction|exact R]. }
  exists pt2, sol2, perm', npnil, pt3. split; [exact E9|]. split; [exact E10|]. split; [congruence|].
  split; [|split; [|exact C10]].
  - intros v Hv Sv. destruct (Hq v Hv Sv) as [B C]. rewrite G10 by exact B. rewrite GP by lia. rewrite C. reflexivity.
  - clear - GS Hq Hle. induction GS as [|f f' l l' [S1 [S2 S3]] GS IH]; constructor; [|exact IH].
    split; [exact S1|]. split; [exact S2|]. intros v c Hv Sv Hc. destruct (Hq v Hv Sv) as [B C].
    rewrite S3 by (lia || exact Hc). rewrite C. reflexivity.
Qed.

(** C22.  Whatever order SCOTCH returns, the renumbering succeeds; it renames
    vertices and elements by two bijections, applied to the connectivity, to the
    vertex data and to every solution; it drops the holes and the vertices that
    are neither used nor required; the free lists are rebuilt and the adjacency
    fits the new mesh. *)
Theorem C22_renumber : forall inival ord m,
  rnb_ok inival m -> is_perm (rank (rtet m) (rne m)) ord ->
  exists m' adj s e, renumber inival ord m = Ret (m', adj) /\ renumbered m m' s e /\
    (forall k, alive m k -> e k = aget ord (rank (rtet m) k)) /\
    adj_fits (rne m') (rtet m') adj.
Proof.
  intros inival ord m M Hord.
  destruct (place_tets_ok (rne m) (rtet m) ord) as [old [pl [tet1 [pl' [E1 [E2 [E3 [LT [Hcnt [Hlive1 [He [Hsurj Hei]]]]]]]]]]]].
  { pose proof (ro_ne _ _ M). lia. } { exact Hord. }
  unfold renumber. rewrite E1. cbn [bind]. rewrite E2. cbn [bind]. rewrite E3. cbn [bind]. clear E1 E2 E3.
  assert (Hal : forall k, alive m k <-> 1 <= k <= rne m /\ live (aget (rtet m) k) = true).
  { intros k. unfold alive, live. destruct (Z.eqb_spec (v0 (aget (rtet m) k)) 0); cbn [negb]; intuition congruence. }
  assert (Hrange : forall v, used_by_tet m v \/ used_by_prism m v -> vgood (rnp m) (rpt m) v).
  { intros v Hu. assert (A : 1 <= v <= rnp m /\ vok (aget (rpt m) v) = true).
    { destruct Hu as [H|H]; [apply (ro_tet _ _ M v H) | apply (ro_pri _ _ M v H)]. }
    destruct A as [A B]. split; [exact A|]. pose proof (ro_tag _ _ M v A). unfold vok in B. apply Z.ltb_lt in B. auto. }
  assert (Hused : forall k v, 1 <= k <= rank (rtet m) (rne m) -> In v (tverts (aget tet1 k)) -> used_by_tet m v).
  { intros k v Hk Hv. destruct (Hsurj k Hk) as [j [A [B [_ C]]]]. exists j. split; [exact A|]. rewrite <- C. split; [|exact Hv].
    rewrite <- C in B. unfold live in B. intros Z0. rewrite Z0 in B. discriminate. }
  assert (Hgood : forall k v, 1 <= k <= rank (rtet m) (rne m) -> In v (tverts (aget tet1 k)) -> vgood (rnp m) (rpt m) v)
    by (intros k v Hk Hv; apply Hrange; left; exact (Hused k v Hk Hv)).
  assert (Hgoodp : forall k v, 1 <= k <= rnpr m -> pok (aget (rpri m) k) = true -> In v (aget (rpri m) k) -> vgood (rnp m) (rpt m) v).
  { intros k v Hk Pk Hv. apply Hrange. right. exists k. unfold pok in Pk. apply Z.ltb_lt in Pk. auto. }
  destruct (number_ok (rnp m) (rpt m)) with (ne := rne m) (npr := rnpr m) (nlive := rank (rtet m) (rne m)) (tet := tet1) (pri := rpri m)
    as [perm [np' [E4 NI4]]].
  { pose proof (ro_np _ _ M). lia. }
  { pose proof (ro_ne _ _ M). lia. }
  { apply (ro_npr _ _ M). } { apply (ro_np _ _ M). } { apply (ro_tag _ _ M). }
  { exact Hlive1. } { exact Hgood. } { exact Hgoodp. }
  rewrite E4. cbn [bind]. clear E4.
  assert (Hmet : forall v, 1 <= v <= rnp m -> (met (rpt m) (rnpr m) (rank (rtet m) (rne m)) tet1 (rpri m) v <-> kept m v)).
  { intros v Hv.
    assert (Vo : vgood (rnp m) (rpt m) v -> vok (aget (rpt m) v) = true) by (intros [_ D]; apply Z.ltb_lt; apply D).
    split.
    - intros [[k [A B]]|[[k [A [B C]]]|[B C]]].
      + split; [exact Hv|]. split; [apply Vo; exact (Hgood k v A B)|]. left. exact (Hused k v A B).
      + split; [exact Hv|]. split; [apply Vo; exact (Hgoodp k v A B C)|]. right. left.
        exists k. unfold pok in B. apply Z.ltb_lt in B. auto.
      + split; [exact Hv|]. auto.
    - intros [_ [V [[k [A [B C]]]|[[k [A [B C]]]|B]]]].
      + left. assert (Lk : live (aget (rtet m) k) = true) by (apply Hal; split; assumption).
        destruct (He k A Lk) as [D F]. exists (aget ord (rank (rtet m) k)). split; [exact D|]. rewrite F. exact C.
      + right. left. exists k. unfold pok. split; [exact A|]. split; [apply Z.ltb_lt; exact B|exact C].
      + right. right. auto. }
  pose proof (NI_ext _ _ _ _ NI4 Hmet) as N. clear NI4 Hmet.
  assert (Kr : forall v, kept m v -> 1 <= v <= rnp m) by (intros v Kv; apply Kv).
  assert (Hs : numbers (kept m) (aget perm) np').
  { split; [|split].
    - intros v Kv. destruct (ni_val _ _ _ N v (Kr v Kv)) as [Z0|R]; [|exact R].
      exfalso. apply (ni_set _ _ _ N v (Kr v Kv)) in Kv. contradiction.
    - intros v w Kv Kw Eq. apply (ni_inj _ _ _ N v w (Kr v Kv) (Kr w Kw) Eq). apply (ni_set _ _ _ N v (Kr v Kv)). exact Kv.
    - intros r Hr. destruct (ni_surj _ _ _ N r Hr) as [v [Hv Eq]]. exists v. split; [|exact Eq].
      apply (ni_set _ _ _ N v Hv). cbn [fst snd] in *. lia. }
  pose proof (ni_len _ _ _ N) as Lperm. cbn [fst] in Lperm.
  (* connectivity *)
  destruct (map_loop _ (ren_tet perm) (fun k => retet (aget perm) (aget tet1 k)) (rank (rtet m) (rne m)) tet1) as [tet2 [E5 [L5 G5]]].
  { pose proof (ro_ne _ _ M). lia. }
  { intros k Hk. apply ren_tet_ok. intros v Hv. destruct (Hgood k v Hk Hv) as [D _]. lia. }
  unfold ren_tets. rewrite E5. cbn [bind]. clear E5.
  destruct (map_loop _ (ren_list perm) (fun k => map (aget perm) (aget (rpri m) k)) (rnpr m) (rpri m)) as [pri2 [E6 [L6 G6]]].
  { apply (ro_npr _ _ M). }
  { intros k Hk. apply ren_list_ok. intros v Hv. pose proof (proj2 (ro_npr _ _ M) k v Hk Hv). lia. }
  unfold ren_lists at 1. rewrite E6. cbn [bind]. clear E6.
  destruct (map_loop _ (ren_list perm) (fun k => map (aget perm) (aget (rquad m) k)) (rnq m) (rquad m)) as [quad2 [E7 [L7 G7]]].
  { apply (ro_nq _ _ M). }
  { intros k Hk. apply ren_list_ok. intros v Hv. pose proof (proj2 (ro_nq _ _ M) k v Hk Hv). lia. }
  unfold ren_lists. rewrite E7. cbn [bind]. clear E7.
  assert (Hglob : exists g2, match rglob m with
            | None => Ret None
            | Some g => g2 <- ren_glob perm (rnpi m) (rpt m) g ;; Ret (Some g2)
            end = Ret g2 /\ match rglob m, g2 with
     | None, None => True
     | Some g, Some g' => forall k, 1 <= k <= rnpi m ->
         aget g' k = if vok (aget (rpt m) (aget g k)) then aget perm (aget g k) else aget g k
     | _, _ => False
     end).
  { destruct (rglob m) as [g|] eqn:Eg; [|exists None; auto]. destruct (ro_glob _ _ M g Eg) as [A B].
    destruct (ren_glob_ok perm (rnpi m) (rpt m) g) as [g' [E G]]; [exact A| |].
    - intros k Hk. destruct (B k Hk) as [B1 B2]. split; [exact B1|]. intros V. specialize (B2 V).
      pose proof (Kr _ B2). pose proof (proj1 Hs _ B2). lia.
    - rewrite E. cbn [bind]. exists (Some g'). split; [reflexivity|exact G]. }
  destruct Hglob as [g2 [E8 G8]]. rewrite E8. cbn [bind]. clear E8.
  (* vertices *)
  destruct (place_nods_ok (rnp m) (rnpmax m) (rpt m) (rsol m) perm np' (kept m)) as [pt2 [sol2 [perm' [npnil [pt3 [E9 [E10 [L10 [G10 [S10 C10]]]]]]]]]].
  { apply (ro_np _ _ M). } { apply (ro_np _ _ M). } { apply (ro_sol _ _ M). } { exact N. }
  rewrite E9. cbn [bind]. rewrite E10. cbn [bind]. clear E9 E10.
  destruct (relink_tets_ok (rank (rtet m) (rne m)) (rnemax m) tet2) as [nenil [tet3 [E11 [L11 [G11 [V11 C11]]]]]].
  { lia. } { pose proof (ro_ne _ _ M). lia. }
  rewrite E11. cbn [bind]. clear E11.
  assert (G12 : forall k, 1 <= k <= rank (rtet m) (rne m) -> aget tet3 k = retet (aget perm) (aget tet1 k)).
  { intros k Hk. rewrite G11 by exact Hk. rewrite G5. destruct (Z.leb_spec 1 k), (Z.leb_spec k (rank (rtet m) (rne m))); try lia. reflexivity. }
  assert (Hpack : packed (rank (rtet m) (rne m)) (rnemax m) tet3).
  { pose proof (ro_ne _ _ M). split; [lia|]. split; [lia|]. intros k Hk i Hi. rewrite G12 by exact Hk.
    assert (Hv : forall v, In v (tverts (aget tet1 k)) -> 0 < aget perm v).
    { intros v Hv. destruct (Hgood k v Hk Hv) as [D F]. assert (Kv : kept m v).
      { split; [exact D|]. split; [apply Z.ltb_lt; apply F|]. left. exact (Hused k v Hk Hv). }
      pose proof (proj1 Hs v Kv). lia. }
    unfold tverts in Hv. clear - Hv Hi. assert (i = 0 \/ i = 1 \/ i = 2 \/ i = 3) as [->|[->|[->| ->]]] by lia;
      unfold tv, retet; cbn; apply Hv; cbn; auto. }
  destruct (C04_adjacency inival (rank (rtet m) (rne m)) (rnemax m) tet3 Hpack) as [adj [E12 [_ F12]]].
  { pose proof (ro_ne _ _ M). lia. }
  rewrite E12. cbn [bind]. eexists _, adj, (aget perm), (fun k => aget ord (rank (rtet m) k)).
  split; [reflexivity|]. split; [|split; [reflexivity|exact F12]].
  constructor; cbn [rnp rnpnil rnpmax rpt rsol rne rnenil rnemax rtet rnpr rpri rnq rquad rnpi rglob].
  - exact Hs.
  - split; [|split].
    + intros k Ak. apply Hal in Ak. apply He; apply Ak.
    + intros k l Ak Al. apply Hal in Ak. apply Hal in Al. destruct Ak, Al. apply Hei; assumption.
    + intros r Hr. destruct (Hsurj r Hr) as [k [A [B [C _]]]]. exists k. split; [|exact C]. apply Hal. auto.
  - repeat split; congruence.
  - intros v Kv. apply G10; [exact (Kr v Kv)|exact Kv].
  - clear - S10 Kr. induction S10 as [|f f' l l' [S1 [S2 S3]] GS IH]; constructor; [|exact IH].
    split; [exact S1|]. split; [exact S2|]. intros v c Kv Hc. apply S3; [exact (Kr v Kv)|exact Kv|exact Hc].
  - intros k Ak. apply Hal in Ak. destruct Ak as [A B]. destruct (He k A B) as [C D]. rewrite G12 by exact C. rewrite D. reflexivity.
  - intros k Hk. rewrite V11, G5. destruct (Z.leb_spec k (rank (rtet m) (rne m))); [lia|]. rewrite andb_false_r.
    pose proof (Hlive1 k ltac:(lia)) as HL. unfold live in HL. lia.
  - split; [reflexivity|]. intros k Hk. rewrite G6. destruct (Z.leb_spec 1 k), (Z.leb_spec k (rnpr m)); try lia. cbn [andb].
    split; [reflexivity|]. intros Z0. destruct (aget (rpri m) k) as [|v l]; [reflexivity|]. cbn [hd map] in *. subst v.
    exact (ni_zero _ _ _ N).
  - split; [reflexivity|]. intros k Hk _. rewrite G7. destruct (Z.leb_spec 1 k), (Z.leb_spec k (rnq m)); try lia. reflexivity.
  - exact G8.
  - exact C10.
  - exact C11.
Qed.
Print Assumptions C22_renumber.

(** Non-trivial instance: five element slots of which the second is a hole, two
    elements to exchange, a prism, a hole among the vertices (9), an unused
    required vertex (10), an unused plain one (11), a metric and a tensor field. *)
Definition c22_pt (k : Z) : point :=
  mkP (100 + k) k 0 0 0 (if k =? 9 then MG_NUL else if k =? 10 then MG_REQ else 0).
Definition c22_glob : arr Z := aof 0 [1; 8; 9; 10].
Definition c22 : rmesh :=
  mkR 11 12 14 (mkArr 15 c22_pt) [mkF 1 (mkArr 15 (fun i => inject_Z i)); mkF 6 (mkArr 90 (fun i => inject_Z i))]
      4 5 6 (mkArr 7 (aget (aof tetra0 [mkT 8 3 4 5 1 0 0 0; mkT 0 0 0 6 0 0 0 0; mkT 3 4 5 6 2 0 0 0; mkT 1 2 7 8 3 0 0 0])))
      1 (aof [] [[1; 2; 3; 4; 5; 6]]) 1 (aof [] [[1; 2; 5; 4]]) 4 (Some c22_glob).
Definition c22_ord : arr Z := aof 0 [3; 1; 2].
Example C22_case_hyps : rnb_ok 1000 c22 /\ is_perm (rank (rtet c22) (rne c22)) c22_ord.
Proof.
  assert (T : forall v, used_by_tet c22 v -> 1 <= v <= 8).
  { intros v [k [A [B C]]]. cbn in A. assert (k = 1 \/ k = 2 \/ k = 3 \/ k = 4) as [->|[->|[->| ->]]] by lia;
      [|exfalso; apply B; reflexivity| |]; vm_compute in C; lia. }
  assert (P : forall v, used_by_prism c22 v -> 1 <= v <= 6).
  { intros v [k [A [B C]]]. cbn in A. assert (k = 1) as -> by lia. vm_compute in C. lia. }
  assert (V : forall v, 1 <= v <= 8 -> 1 <= v <= rnp c22 /\ vok (aget (rpt c22) v) = true).
  { intros v Hv. cbn [rnp rpt c22 aget]. split; [lia|]. unfold c22_pt, vok. cbn [ptag].
    destruct (Z.eqb_spec v 9), (Z.eqb_spec v 10); try lia; reflexivity. }
  split.
  - constructor.
    + cbn. lia.
    + cbn. lia.
    + intros v Hv. cbn [rpt c22 aget c22_pt ptag]. destruct (v =? 9); [unfold MG_NUL; lia|]. destruct (v =? 10); unfold MG_REQ; lia.
    + intros v H. apply V, T, H.
    + intros v H. apply V. apply P in H. lia.
    + split; [cbn; lia|]. intros k v A B. cbn in A. assert (k = 1) as -> by lia. vm_compute in B. cbn [rnp c22]. lia.
    + split; [cbn; lia|]. intros k v A B. cbn in A. assert (k = 1) as -> by lia. vm_compute in B. cbn [rnp c22]. lia.
    + repeat constructor; cbn; lia.
    + intros g E. inversion E; subst. split; [cbn; lia|]. intros k A. cbn in A.
      assert (k = 1 \/ k = 2 \/ k = 3 \/ k = 4) as [->|[->|[->| ->]]] by lia.
      * split; [vm_compute; intuition discriminate|]. intros _. split; [vm_compute; intuition discriminate|]. split; [reflexivity|]. left. exists 4. vm_compute. intuition discriminate.
      * split; [vm_compute; intuition discriminate|]. intros _. split; [vm_compute; intuition discriminate|]. split; [reflexivity|]. left. exists 4. vm_compute. intuition discriminate.
      * split; [vm_compute; intuition discriminate|]. intros H. vm_compute in H. discriminate.
      * split; [vm_compute; intuition discriminate|]. intros _. split; [vm_compute; intuition discriminate|]. split; [reflexivity|]. right. right. vm_compute. discriminate.
  - change (rank (rtet c22) (rne c22)) with 3. split; [cbn; lia|].
    change (Permutation [3; 1; 2] [1; 2; 3]). apply NoDup_Permutation.
    + repeat constructor; cbn; intuition discriminate.
    + repeat constructor; cbn; intuition discriminate.
    + intros x. cbn. lia.
Qed.
(** The eight used vertices and the required one are numbered in the order of
    their first use; coordinates, metric and field follow; vertex 11 is dropped. *)
Example C22_case :
  ('(m, adj) <- renumber 1000 c22_ord c22 ;;
   Ret (rnp m, rne m, map (fun k => pc (aget (rpt m) k)) (zrange 1 (rnp m)),
        map (fun k => tverts (aget (rtet m) k)) (zrange 1 (rne m)),
        aget (rpri m) 1, aget (rquad m) 1, match rglob m with Some g => map (aget g) [1; 2; 3; 4] | None => [] end,
        map (fun f => map (fun k => Qnum (aget (fval f) (k * fsz f))) (zrange 1 (rnp m))) (rsol m)))
  = Ret (9, 3, [103; 104; 105; 106; 101; 102; 107; 108; 110],
         [[1; 2; 3; 4]; [5; 6; 7; 8]; [8; 1; 2; 3]],
         [5; 6; 1; 2; 3; 4], [5; 6; 3; 2], [5; 8; 9; 9],
         [[3; 4; 5; 6; 1; 2; 7; 8; 10]; [18; 24; 30; 36; 6; 12; 42; 48; 60]]).
Proof. vm_compute. reflexivity. Qed.

(** The table [permNodGlob] may name a valid vertex that no element uses and that
    is not required: the renumbering drops it and the assertion at
    librnbg_3d.c:379 fails (with NDEBUG, the table maps that vertex to 0). *)
Theorem C22_orphan_refuted : exists m ord g,
  0 < rnp m <= rnpmax m /\ is_perm (rank (rtet m) (rne m)) ord /\ rglob m = Some g /\
  (forall k, 1 <= k <= rnpi m -> 1 <= aget g k <= rnp m /\ vok (aget (rpt m) (aget g k)) = true) /\
  renumber 1000 ord m = Stuck.
Proof.
  exists (mkR 5 6 7 (mkArr 8 (fun k => mkP k 0 0 0 0 0)) [] 1 2 3 (mkArr 4 (aget (aof tetra0 [mkT 1 2 3 4 0 0 0 0])))
          0 (aof [] []) 0 (aof [] []) 5 (Some (aof 0 [1; 2; 3; 4; 5]))), (aof 0 [1]), (aof 0 [1; 2; 3; 4; 5]).
  split; [cbn; lia|]. split; [split; [reflexivity|apply Permutation_refl]|]. split; [reflexivity|]. split.
  - intros k Hk. cbn in Hk.
    assert (k = 1 \/ k = 2 \/ k = 3 \/ k = 4 \/ k = 5) as [->|[->|[->|[->| ->]]]] by lia; vm_compute; intuition discriminate.
  - vm_compute. reflexivity.
Qed.
Print Assumptions C22_orphan_refuted.
