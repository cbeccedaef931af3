(** Properties C07, C08, C09: packing. *)
From Coq Require Import ZArith List Lia Bool Permutation.
From Verif Require Import CBase Chain MeshModel PoolModel PoolSpec PoolProofs PoolTet AdjaModel PropsAdja PackModel PackPlan PackPts PackTet PackMain.
Import ListNotations.
Open Scope Z_scope.

(** ** Specification *)

Definition live_v (s : vpool) (i : Z) : Prop := 1 <= i <= vnp s /\ ptag (aget (vpt s) i) < MG_NUL.
Definition live_e (e : epool) (k : Z) : Prop := 1 <= k <= ene e /\ 0 < v0 (aget (etet e) k).

(** [l] is a numbering: its [j]th entry is the old index of the new number [j]. *)
Definition old (l : list Z) (j : Z) : Z := nth (Z.to_nat (j - 1)) l 0.
Definition numbers (l : list Z) (live : Z -> Prop) (n : Z) : Prop :=
  NoDup l /\ (forall i, In i l <-> live i) /\ n = Z.of_nat (length l).

(** Symmetric adjacency between live tetrahedra. *)
Definition sym_adja (e : epool) (adj : arr Z) : Prop :=
  forall k i, live_e e k -> 0 <= i < 4 ->
    entry adj k i = 0 \/
    exists l j, live_e e l /\ l <> k /\ 0 <= j < 4 /\ entry adj k i = 4 * l + j /\ entry adj l j = 4 * k + i.

(** A mesh as the packing finds it. *)
Record packable (s : vpool) (e : epool) (size : Z) (m : arr Z) : Prop := {
  pk_pts : vnp s <= vmax s /\ alen (vpt s) = vmax s + 1;
  pk_one : exists i, live_v s i;
  pk_xp : forall i, 1 <= i <= vnp s -> 0 <= pxp (aget (vpt s) i) <= vxmax s;
  pk_tet : 0 <= ene e <= emax e /\ alen (etet e) = emax e + 1;
  pk_last : 1 <= ene e -> live_e e (ene e);
  pk_ver : forall k i, live_e e k -> 0 <= i < 4 -> live_v s (tv (aget (etet e) k) i);
  pk_sol : 0 < size /\ (vnp s + 1) * size <= alen m;
  pk_adj : forall adj, eadj e = Some adj -> alen adj = 4 * emax e + 5 /\ sym_adja e adj
}.

(** Bit [b] of the tag after packing: the marks "required because not a surface
    vertex" (bits 6 and 2) are dropped together. *)
Definition tag_bit (t b : Z) : bool := Z.testbit t b && negb (Z.testbit t 6 && ((b =? 6) || (b =? 2))).

(** ** Proofs *)

Lemma unsurf_bits t b : 0 <= b -> Z.testbit (unsurf t) b = tag_bit t b.
Proof.
  intros Hb. unfold unsurf, tag_bit, MG_NOSURF, MG_REQ.
  assert (L6 : Z.land t 64 = if Z.testbit t 6 then 64 else 0).
  { apply Z.bits_inj'. intros n Hn. rewrite Z.land_spec. change 64 with (2 ^ 6) at 1. rewrite Z.pow2_bits_eqb by lia.
    destruct (Z.testbit t 6) eqn:E6.
    - change 64 with (2 ^ 6). rewrite Z.pow2_bits_eqb by lia. destruct (Z.eqb_spec 6 n) as [<-|]; [rewrite E6; reflexivity|apply andb_false_r].
    - rewrite Z.bits_0. destruct (Z.eqb_spec 6 n) as [<-|]; [rewrite E6; reflexivity|apply andb_false_r]. }
  rewrite L6. destruct (Z.testbit t 6) eqn:E6.
  - cbn [Z.eqb]. rewrite !Z.ldiff_spec. change 64 with (2 ^ 6). change 4 with (2 ^ 2). rewrite !Z.pow2_bits_eqb by lia.
    rewrite (Z.eqb_sym 6 b), (Z.eqb_sym 2 b). destruct (Z.testbit t b), (b =? 6), (b =? 2); reflexivity.
  - cbn [Z.eqb]. cbn [andb negb]. rewrite andb_true_r. reflexivity.
Qed.

Lemma live_ok s i : live_v s i <-> 1 <= i <= vnp s /\ okf (vpt s) i = true.
Proof. unfold live_v, okf, vok. rewrite Z.ltb_lt. tauto. Qed.
Lemma elive_ok e i : live_e e i <-> 1 <= i <= ene e /\ eokf (etet e) i = true.
Proof. unfold live_e, eokf, eok. rewrite Z.ltb_lt. tauto. Qed.

Lemma pre_of e adj : eadj e = Some adj -> alen adj = 4 * emax e + 5 -> sym_adja e adj -> AdjOK (eokf (etet e)) (ene e) adj.
Proof.
  intros _ _ S k i Hk Ok Hi. destruct (S k i (proj2 (elive_ok e k) (conj Hk Ok)) Hi) as [Z0|[l [j [L1 [L2 [L3 [L4 L5]]]]]]]; [left; exact Z0|right].
  apply elive_ok in L1. destruct L1 as [L0 L1]. exists l, j. repeat split; auto; try lia.
Qed.

(** The packing described with both numberings; C07 and C08 are read off it. *)
Lemma packMesh_ok s e size m : packable s e size m ->
  exists s' e' m' nc vs es, packMesh s e size m = Ret (1, s', e', m', nc) /\
    numbers vs (live_v s) (vnp s') /\ numbers es (live_e e) (ene e') /\
    nc = Z.of_nat (length (filter (fun i => Z.testbit (ptag (aget (vpt s) i)) 5) vs)) /\
    (forall j, 1 <= j <= vnp s' -> let p := aget (vpt s) (old vs j) in let p' := aget (vpt s') j in
       pc p' = pc p /\ pref p' = Z.abs (pref p) /\ pxp p' = pxp p /\ pflag p' = pflag p /\ ptag p' < MG_NUL /\
       forall b, 0 <= b -> Z.testbit (ptag p') b = tag_bit (ptag p) b) /\
    (forall j i, 1 <= j <= vnp s' -> 0 <= i < size -> aget m' (j * size + i) = aget m (old vs j * size + i)) /\
    (forall j, 1 <= j <= ene e' -> let t := aget (etet e) (old es j) in let t' := aget (etet e') j in
       tref t' = tref t /\ txt t' = txt t /\ tmark t' = tmark t /\ tq t' = tq t /\
       forall i, 0 <= i < 4 -> 1 <= tv t' i <= vnp s' /\ old vs (tv t' i) = tv t i) /\
    match eadj e, eadj e' with
    | None, None => True
    | Some adj, Some adj' => alen adj' = 4 * emax e' + 5 /\
       (forall j i, 1 <= j <= ene e' -> 0 <= i < 4 ->
         (entry adj (old es j) i = 0 -> entry adj' j i = 0) /\
         (forall l n, 1 <= l <= ene e' -> 0 <= n < 4 -> entry adj (old es j) i = 4 * old es l + n -> entry adj' j i = 4 * l + n))
    | _, _ => False
    end /\ vmax s' = vmax s /\ emax e' = emax e /\ alen (vpt s') = vmax s' + 1 /\ alen (etet e') = emax e' + 1.
Proof.
  intros [[Hn Hl] Hone Hxp [Hen Hel] Hlast Hver [Hs Hm] Hadj].
  destruct (last_live (okf (vpt s)) (vnp s)) as [l [Rl [Ol Gl]]]. { destruct Hone as [i Hi]. apply live_ok in Hi. exists i. exact Hi. }
  assert (Hlast' : 1 <= ene e -> eokf (etet e) (ene e) = true) by (intros H; apply Hlast in H; apply elive_ok in H; apply H).
  destruct (pack_tetra_ok e Hen Hel Hlast') as [e1 [ren [E1 [T1 [T2 [T3 [T4 [T5 T6]]]]]]]].
  { unfold adj_pre. destruct (eadj e) as [adj|] eqn:Ea; [|exact Logic.I]. destruct (Hadj adj eq_refl) as [A1 A2]. split; [exact A1|]. eapply pre_of; eauto. }
  set (es := eplan e) in *. set (vs := vplan (vpt s) l) in *.
  assert (Hvs : forall i, In i vs <-> live_v s i).
  { intros i. unfold vs, vplan. rewrite plan_in by (try lia; right; exact Ol). rewrite live_ok. split; intros [H1 H2]; (split; [|exact H2]); [lia|].
    split; [lia|]. destruct (Z_le_gt_dec i l); [assumption|]. rewrite Gl in H2 by lia. discriminate. }
  assert (Hes : forall i, In i es <-> live_e e i).
  { intros i. rewrite elive_ok. unfold es, eplan. destruct (Z.eq_dec (ene e) 0) as [Z0|N0].
    - rewrite Z0. cbn. lia.
    - rewrite plan_in; [tauto|lia|right; apply Hlast'; lia]. }
  assert (Nvs : NoDup vs) by (unfold vs, vplan; apply plan_nodup; [lia|right; exact Ol]).
  assert (Nes : NoDup es).
  { unfold es, eplan. destruct (Z.eq_dec (ene e) 0) as [Z0|N0]; [rewrite Z0; constructor|]. apply plan_nodup; [lia|right; apply Hlast'; lia]. }
  assert (Hsrc : forall j, 1 <= j <= plen es -> live_e e (src es j)) by (intros j Hj; apply Hes, src_in; exact Hj).
  assert (Hle : plen es <= ene e).
  { unfold es, eplan. destruct (Z.eq_dec (ene e) 0) as [Z0|N0]; [rewrite Z0; cbn; lia|].
    pose proof (plan_len (eokf (etet e)) (Z.to_nat (ene e)) 1 (ene e) ltac:(lia) (or_intror (Hlast' ltac:(lia)))). lia. }
  unfold packMesh. rewrite E1. cbn [bind]. replace (1 =? 0) with false by reflexivity.
  destruct (pack_sol_ok (vnp s) (vpt s) size m l Hs ltac:(lia) Rl Ol Gl Hm) as [m' [Em [Lm Mm]]]. fold vs in Em, Mm. rewrite Em. cbn [bind].
  destruct (pack_points_ok s (ene e1) (etet e1) l Hn Hl Rl Ol Gl Hxp) as [s' [tet' [Ep [P1 [P2 [P3 [P4 [P5 [P6 [P7 [P8 [P9 [P10 _]]]]]]]]]]]]].
  { assert (0 <= plen es) by (unfold plen; lia). lia. }
  { intros k Hk. unfold eokf. rewrite T4 by lia. apply (elive_ok e). apply Hsrc. lia. }
  { intros k i Hk Hi. rewrite T4 by lia. apply live_ok. apply Hver; [apply Hsrc; lia|exact Hi]. }
  fold vs in Ep, P1, P2, P8, P10. rewrite Ep. cbn [bind]. rewrite P1, Z.eqb_refl. cbn [c_assert bind].
  exists s', (mkE (ene e1) (enil e1) (emax e1) tet' (eadj e1)), m', (corners (vpt s) vs), vs, es. split; [reflexivity|].
  cbn [ene etet eadj emax]. rewrite P1, T1.
  split; [split; [exact Nvs|split; [exact Hvs|reflexivity]]|]. split; [split; [exact Nes|split; [exact Hes|reflexivity]]|].
  split.
  { unfold corners, plen. f_equal. f_equal. apply filter_ext_in. intros x _. unfold corner, MG_CRN.
    assert (L5 : Z.land (unsurf (ptag (aget (vpt s) x))) 32 = if Z.testbit (unsurf (ptag (aget (vpt s) x))) 5 then 32 else 0).
    { set (t := unsurf _). apply Z.bits_inj'. intros n Hn0. rewrite Z.land_spec. change 32 with (2 ^ 5) at 1. rewrite Z.pow2_bits_eqb by lia.
      destruct (Z.testbit t 5) eqn:E5.
      - change 32 with (2 ^ 5). rewrite Z.pow2_bits_eqb by lia. destruct (Z.eqb_spec 5 n) as [<-|]; [rewrite E5; reflexivity|apply andb_false_r].
      - rewrite Z.bits_0. destruct (Z.eqb_spec 5 n) as [<-|]; [rewrite E5; reflexivity|apply andb_false_r]. }
    rewrite L5, unsurf_bits by lia. unfold tag_bit. cbn [Z.eqb orb]. change ((5 =? 6) || (5 =? 2)) with false. rewrite andb_false_r, andb_true_r.
    destruct (Z.testbit (ptag (aget (vpt s) x)) 5); reflexivity. }
  split.
  { intros j Hj. cbv zeta. rewrite P8 by exact Hj. cbn [set_tmp mark1 pc pref pxp pflag ptag]. change (src vs j) with (old vs j).
    repeat (split; [reflexivity|]). split.
    - assert (Hlv : live_v s (old vs j)) by (apply Hvs, (src_in vs j); exact Hj). destruct Hlv as [_ Hlv].
      pose proof (unsurf_le (ptag (aget (vpt s) (old vs j)))). lia.
    - intros b Hb. apply unsurf_bits. exact Hb. }
  split.
  { intros j i Hj Hi. replace j with (1 + (j - 1)) at 1 by lia. rewrite Mm by lia. reflexivity. }
  split.
  { intros j Hj. cbv zeta. destruct (P10 j ltac:(lia)) as [V [U1 [U2 [U3 U4]]]]. rewrite T4 in V, U1, U2, U3, U4 by exact Hj.
    change (src es j) with (old es j) in *. repeat (split; [assumption|]). intros i Hi. apply V. exact Hi. }
  split.
  { unfold adj_rel in T6. destruct (eadj e) as [adj|] eqn:Ea, (eadj e1) as [adj'|] eqn:Ea'; try contradiction; [|exact Logic.I].
    destruct T6 as [La R]. destruct (Hadj adj eq_refl) as [A1 A2]. split; [lia|]. intros j i Hj Hi.
    pose proof (Hsrc j Hj) as Lj. apply elive_ok in Lj. destruct Lj as [Lj1 Lj2].
    pose proof (R (src es j) i Lj1 Lj2 Hi) as Rj. rewrite T5 in Rj by exact Hj.
    change (ent adj' j i) with (entry adj' j i) in Rj. change (ent adj (src es j) i) with (entry adj (old es j) i) in Rj.
    split.
    - intros Z0. rewrite Rj, Z0. reflexivity.
    - intros l0 n Hl0 Hn0 El. rewrite Rj, El. unfold renx.
      pose proof (Hsrc l0 Hl0) as [Ll _]. change (src es l0) with (old es l0) in Ll.
      destruct (Z.eqb_spec (4 * old es l0 + n) 0); [lia|]. destruct (dm (old es l0) n Hn0) as [D1 D2]. rewrite D1, D2.
      change (old es l0) with (src es l0). rewrite T5 by exact Hl0. reflexivity. }
  split; [exact P3|]. split; [exact T2|]. split; [lia|]. lia.
Qed.

(** C07.  Packing any mesh with a live vertex, whose last tetrahedron is live and
    whose live tetrahedra use live vertices, succeeds without undefined behaviour.
    Live vertices and tetrahedra are numbered one to one onto 1..n ([vs], [es]
    give the old index of each new number).  Each vertex keeps its coordinates, its reference
    (up to the sign, which only marks vertices during remeshing), its boundary data and its solution values, each
    tetrahedron keeps its data and its vertices. *)
Theorem C07_packing : forall s e size m, packable s e size m ->
  exists s' e' m' nc vs es, packMesh s e size m = Ret (1, s', e', m', nc) /\
    numbers vs (live_v s) (vnp s') /\ numbers es (live_e e) (ene e') /\
    nc = Z.of_nat (length (filter (fun i => Z.testbit (ptag (aget (vpt s) i)) 5) vs)) /\
    (forall j, 1 <= j <= vnp s' -> let p := aget (vpt s) (old vs j) in let p' := aget (vpt s') j in
       pc p' = pc p /\ pref p' = Z.abs (pref p) /\ pxp p' = pxp p /\ pflag p' = pflag p /\ ptag p' < MG_NUL /\
       forall b, 0 <= b -> Z.testbit (ptag p') b = tag_bit (ptag p) b) /\
    (forall j i, 1 <= j <= vnp s' -> 0 <= i < size -> aget m' (j * size + i) = aget m (old vs j * size + i)) /\
    (forall j, 1 <= j <= ene e' -> let t := aget (etet e) (old es j) in let t' := aget (etet e') j in
       tref t' = tref t /\ txt t' = txt t /\ tmark t' = tmark t /\ tq t' = tq t /\
       forall i, 0 <= i < 4 -> 1 <= tv t' i <= vnp s' /\ old vs (tv t' i) = tv t i).
Proof.
  intros s e size m H. destruct (packMesh_ok s e size m H) as [s' [e' [m' [nc [vs [es [E [A1 [A2 [A3 [A4 [A5 [A6 _]]]]]]]]]]]]].
  exists s', e', m', nc, vs, es. repeat (split; [assumption|]). exact A6.
Qed.
Print Assumptions C07_packing.

(** In terms of geometry: every tetrahedron of the packed mesh has the coordinates
    of the one it comes from. *)
Theorem C07_same_geometry : forall s e size m, packable s e size m ->
  exists s' e' m' nc es, packMesh s e size m = Ret (1, s', e', m', nc) /\ numbers es (live_e e) (ene e') /\
    forall j i, 1 <= j <= ene e' -> 0 <= i < 4 ->
      pc (aget (vpt s') (tv (aget (etet e') j) i)) = pc (aget (vpt s) (tv (aget (etet e) (old es j)) i)).
Proof.
  intros s e size m H. destruct (C07_packing s e size m H) as [s' [e' [m' [nc [vs [es [E [_ [A2 [_ [A4 [_ A6]]]]]]]]]]]].
  exists s', e', m', nc, es. split; [exact E|]. split; [exact A2|]. intros j i Hj Hi.
  destruct (A6 j Hj) as [_ [_ [_ [_ V]]]]. destruct (V i Hi) as [V1 V2]. destruct (A4 _ V1) as [P _]. rewrite P, V2. reflexivity.
Qed.
Print Assumptions C07_same_geometry.

(** ** C08 *)

(** Adjacency relates faces with the same vertices. *)
Definition geo_adja (e : epool) (adj : arr Z) : Prop :=
  forall k i l j, live_e e k -> live_e e l -> 0 <= i < 4 -> 0 <= j < 4 ->
    entry adj k i = 4 * l + j -> coincide (aget (etet e) k) i (aget (etet e) l) j.

Lemma old_inj l i j : NoDup l -> 1 <= i <= Z.of_nat (length l) -> 1 <= j <= Z.of_nat (length l) -> old l i = old l j -> i = j.
Proof. intros N Hi Hj E. apply (src_inj l i j N Hi Hj E). Qed.

Lemma perm_map_inj (f : Z -> Z) n l1 l2 :
  (forall i j, 1 <= i <= n -> 1 <= j <= n -> f i = f j -> i = j) ->
  (forall x, In x l1 -> 1 <= x <= n) -> (forall x, In x l2 -> 1 <= x <= n) ->
  Permutation (map f l1) (map f l2) -> Permutation l1 l2.
Proof.
  intros Inj H1 H2 P. apply Permutation_map_inv in P. destruct P as [l3 [E P]].
  assert (H3 : forall x, In x l3 -> 1 <= x <= n) by (intros x Hx; apply H2; apply Permutation_in with (l := l3); [apply Permutation_sym; exact P|exact Hx]).
  assert (E2 : l1 = l3); [|rewrite E2; apply Permutation_sym; exact P].
  clear P H2. revert l3 E H3. induction l1 as [|x l1 IH]; intros [|y l3] E H3; try discriminate; [reflexivity|].
  injection E as E1 E2. f_equal.
  - apply Inj; [apply H1; left; reflexivity|apply H3; left; reflexivity|exact E1].
  - apply IH; [intros z Hz; apply H1; right; exact Hz|exact E2|intros z Hz; apply H3; right; exact Hz].
Qed.

Theorem C08_packed_adjacency : forall s e size m adj, packable s e size m -> eadj e = Some adj ->
  exists s' e' m' nc es adj', packMesh s e size m = Ret (1, s', e', m', nc) /\ eadj e' = Some adj' /\
    numbers es (live_e e) (ene e') /\
    (* symmetric, between live tetrahedra *)
    sym_adja e' adj' /\
    (* the same faces, renumbered *)
    (forall j i l n, 1 <= j <= ene e' -> 0 <= i < 4 -> 1 <= l <= ene e' -> 0 <= n < 4 ->
       (entry adj' j i = 4 * l + n <-> entry adj (old es j) i = 4 * old es l + n)) /\
    (forall j i, 1 <= j <= ene e' -> 0 <= i < 4 -> (entry adj' j i = 0 <-> entry adj (old es j) i = 0)) /\
    (* geometric if it was *)
    (geo_adja e adj -> geo_adja e' adj').
Proof.
  intros s e size m adj H Ea. destruct (packMesh_ok s e size m H) as [s' [e' [m' [nc [vs [es [E [[Nv [Hv Lv]] [[Ne [He Le]] [_ [_ [_ [A6 [A7 _]]]]]]]]]]]]]].
  rewrite Ea in A7. destruct (eadj e') as [adj'|] eqn:Ea'; [|contradiction]. destruct A7 as [La R].
  exists s', e', m', nc, es, adj'. split; [exact E|]. split; [exact Ea'|]. split; [exact (conj Ne (conj He Le))|].
  destruct (pk_adj _ _ _ _ H adj Ea) as [_ Sy].
  assert (Hold : forall j, 1 <= j <= ene e' -> live_e e (old es j)).
  { intros j Hj. apply He. apply nth_In. lia. }
  assert (Hnew : forall k, live_e e k -> exists j, 1 <= j <= ene e' /\ old es j = k).
  { intros k Hk. apply He in Hk. destruct (src_of es k Hk) as [j [Hj Ej]]. exists j. unfold plen in Hj. split; [lia|exact Ej]. }
  assert (Hl' : forall j, 1 <= j <= ene e' -> live_e e' j).
  { intros j Hj. split; [exact Hj|]. destruct (A6 j Hj) as [_ [_ [_ [_ V]]]]. destruct (V 0 ltac:(lia)) as [V1 _]. cbn in V1. lia. }
  assert (Cases : forall j i, 1 <= j <= ene e' -> 0 <= i < 4 ->
     (entry adj (old es j) i = 0 /\ entry adj' j i = 0) \/
     exists l n, 1 <= l <= ene e' /\ 0 <= n < 4 /\ l <> j /\ entry adj (old es j) i = 4 * old es l + n /\ entry adj' j i = 4 * l + n /\
        entry adj (old es l) n = 4 * old es j + i /\ entry adj' l n = 4 * j + i).
  { intros j i Hj Hi. destruct (R j i Hj Hi) as [R1 R2]. destruct (Sy (old es j) i (Hold j Hj) Hi) as [Z0|[l [n [L1 [L2 [L3 [L4 L5]]]]]]].
    - left. split; [exact Z0|apply R1; exact Z0].
    - right. destruct (Hnew l L1) as [l' [Hl El]]. subst l. exists l', n. split; [exact Hl|]. split; [exact L3|]. split; [congruence|].
      split; [exact L4|]. split; [apply R2; auto|]. split; [exact L5|]. destruct (R l' n Hl L3) as [_ R3]. apply R3; auto. }
  split; [|split; [|split]].
  - intros j i [Hj _] Hi. destruct (Cases j i Hj Hi) as [[_ Z0]|[l [n [C1 [C2 [C3 [_ [C5 [_ C7]]]]]]]]]; [left; exact Z0|right].
    exists l, n. split; [apply Hl'; exact C1|]. auto.
  - intros j i l n Hj Hi Hl Hn. split.
    + intros En. destruct (Cases j i Hj Hi) as [[_ Z0]|[l2 [n2 [C1 [C2 [_ [C4 [C5 _]]]]]]]]; [lia|]. assert (l2 = l /\ n2 = n) as [-> ->] by lia. exact C4.
    + intros En. destruct (R j i Hj Hi) as [_ R2]. apply R2; auto.
  - intros j i Hj Hi. destruct (Cases j i Hj Hi) as [[Z0 Z1]|[l [n [C1 [C2 [_ [C4 [C5 _]]]]]]]]; [tauto|].
    destruct (Hold l C1) as [Ol _]. split; lia.
  - intros G j i l n [Hj _] [Hl _] Hi Hn En.
    destruct (Cases j i Hj Hi) as [[_ Z0]|[l2 [n2 [C1 [C2 [_ [C4 [C5 _]]]]]]]]; [lia|]. assert (l2 = l /\ n2 = n) as [-> ->] by lia.
    pose proof (G _ _ _ _ (Hold j Hj) (Hold l Hl) Hi Hn C4) as Co. unfold coincide in *.
    destruct (A6 j Hj) as [_ [_ [_ [_ Vj]]]]. destruct (A6 l Hl) as [_ [_ [_ [_ Vl]]]].
    assert (Fm : forall t t', (forall i, 0 <= i < 4 -> 1 <= tv t' i <= vnp s' /\ old vs (tv t' i) = tv t i) -> forall a,
       face t a = map (old vs) (face t' a) /\ forall x, In x (face t' a) -> 1 <= x <= vnp s').
    { intros t t' V a. unfold face. split.
      - rewrite map_map. apply map_ext_in. intros q Hq. apply filter_In in Hq. destruct Hq as [Hq _]. symmetry. apply V. cbn in Hq. lia.
      - intros x Hx. apply in_map_iff in Hx. destruct Hx as [q [<- Hq]]. apply filter_In in Hq. destruct Hq as [Hq _]. apply V. cbn in Hq. lia. }
    destruct (Fm _ _ Vj i) as [F1 F2]. destruct (Fm _ _ Vl n) as [F3 F4]. rewrite F1, F3 in Co.
    apply (perm_map_inj (old vs) (vnp s')); auto. intros a b Ha Hb Hab. apply (old_inj vs); auto; lia.
Qed.
Print Assumptions C08_packed_adjacency.

(** ** C09 *)

(** A history: create in the last slots, delete them, pack, create again.  The
    third creation returns the index of a live vertex. *)
Definition run9 : outcome (vpool * vpool * list Z) :=
  s <- alloc_pts 1 4 0 ;;
  '(_, s) <- newPt s 20 0 None ;; '(_, s) <- newPt s 30 0 None ;; s <- delPt s 2 ;; s <- delPt s 3 ;;
  '(s, _, _) <- pack_points s 0 (acalloc 1 tetra0) ;;
  '(a, s) <- newPt s 21 0 None ;; '(b, s) <- newPt s 31 0 None ;;
  '(c, s2) <- newPt s 41 0 None ;; Ret (s, s2, [a; b; c]).
Definition out9 : vpool * vpool * list Z := match run9 with Ret x => x | Stuck => (mkV 0 0 0 (acalloc 0 point0) 0 0, mkV 0 0 0 (acalloc 0 point0) 0 0, []) end.

(** Histories that may contain packings. *)
Inductive preach : vpool -> vspec -> Prop :=
| pr_reach s st : vreach s st -> preach s st
| pr_step s st o r slot s' : preach s st -> vok_op st o -> vstep s o = Ret (r, slot, s') -> preach s' (vnext st o r slot (vmax s'))
| pr_pack s st s' tet' nc : preach s st -> (exists i, live_v s i) -> alost st = false ->
    pack_points s 0 (acalloc 1 tetra0) = Ret (s', tet', nc) ->
    preach s' (mkVS (fun k => if (1 <=? k) && (k <=? vnp s') then Used (seen (aget (vpt s') k)) else Free) (vmax s') false).

Definition vstate (s : vpool) (o : vop) : vpool := match vstep s o with Ret (_, _, s') => s' | Stuck => s end.
Definition pstate (s : vpool) : vpool := match pack_points s 0 (acalloc 1 tetra0) with Ret (s', _, _) => s' | Stuck => s end.

Lemma step_to s st o r slot : preach s st -> vok_op st o ->
  (match vstep s o with Ret (a, b, _) => (a =? r) && (b =? slot) | Stuck => false end) = true ->
  preach (vstate s o) (vnext st o r slot (vmax (vstate s o))).
Proof.
  intros P Ho H. eapply pr_step; [exact P|exact Ho|]. unfold vstate. destruct (vstep s o) as [[[a b] s']|]; [|discriminate].
  apply andb_prop in H. destruct H as [H1 H2]. apply Z.eqb_eq in H1. apply Z.eqb_eq in H2. subst. reflexivity.
Qed.

Definition h0 : vpool := match alloc_pts 1 4 0 with Ret s => s | Stuck => mkV 0 0 0 (acalloc 0 point0) 0 0 end.
Definition h1 := vstate h0 (PNew 20 0 None).
Definition h2 := vstate h1 (PNew 30 0 None).
Definition h3 := vstate h2 (PDel 2).
Definition h4 := vstate h3 (PDel 3).
Definition h5 := pstate h4.
Definition h6 := vstate h5 (PNew 21 0 None).
Definition h7 := vstate h6 (PNew 31 0 None).
Definition h8 := vstate h7 (PNew 41 0 None).

Theorem C09_creation_after_packing_refuted : exists s st c tag r s',
  preach s st /\ tag_ok tag /\ newPt s c tag None = Ret (r, s') /\ live_v s r /\ pc (aget (vpt s) r) <> pc (aget (vpt s') r).
Proof.
  assert (P0 : exists st, preach h0 st /\ alost st = false).
  { eexists. split; [apply pr_reach; apply (vreach0 1 4 0 h0); [lia|lia|reflexivity]|reflexivity]. }
  destruct P0 as [st0 [P0 L0]].
  assert (Wn : forall st c, alost st = false -> vok_op st (PNew c 0 None)).
  { intros st c El. cbn. unfold tag_ok, MG_NUL. split; [lia|]. split; [discriminate|]. rewrite El. discriminate. }
  assert (P1 := step_to h0 st0 (PNew 20 0 None) 2 2 P0 (Wn st0 20 L0) eq_refl). fold h1 in P1. set (st1 := vnext _ _ _ _ _) in P1.
  assert (P2 := step_to h1 st1 (PNew 30 0 None) 3 3 P1 (Wn st1 30 L0) eq_refl). fold h2 in P2. set (st2 := vnext _ _ _ _ _) in P2.
  assert (O3 : vok_op st2 (PDel 2)) by (exists (20, 0, 0, 0); reflexivity).
  assert (P3 := step_to h2 st2 (PDel 2) 0 0 P2 O3 eq_refl). fold h3 in P3. set (st3 := vnext _ _ _ _ _) in P3.
  assert (O4 : vok_op st3 (PDel 3)) by (exists (30, 0, 0, 0); reflexivity).
  assert (P4 := step_to h3 st3 (PDel 3) 0 0 P3 O4 eq_refl). fold h4 in P4. set (st4 := vnext _ _ _ _ _) in P4.
  assert (P5 : exists st5, preach h5 st5 /\ alost st5 = false).
  { destruct (pack_points h4 0 (acalloc 1 tetra0)) as [[[s' t'] n']|] eqn:E; [|vm_compute in E; discriminate].
    eexists. split.
    - unfold h5, pstate. rewrite E. apply (pr_pack h4 st4 s' t' n' P4); [exists 1; split; [vm_compute; split; discriminate|reflexivity]|exact L0|exact E].
    - reflexivity. }
  destruct P5 as [st5 [P5 L5]].
  assert (P6 := step_to h5 st5 (PNew 21 0 None) 2 2 P5 (Wn st5 21 L5) ltac:(vm_compute; reflexivity)). fold h6 in P6. set (st6 := vnext _ _ _ _ _) in P6.
  assert (P7 := step_to h6 st6 (PNew 31 0 None) 3 3 P6 (Wn st6 31 L5) ltac:(vm_compute; reflexivity)). fold h7 in P7. set (st7 := vnext _ _ _ _ _) in P7.
  exists h7, st7, 41, 0, 2, h8. split; [exact P7|]. split; [unfold tag_ok, MG_NUL; lia|].
  split.
  { unfold h8, vstate. cbn [vstep]. assert (T : match newPt h7 41 0 None with Ret (r, _) => r =? 2 | Stuck => false end = true) by (vm_compute; reflexivity).
    destruct (newPt h7 41 0 None) as [[r s']|]; [|discriminate]. apply Z.eqb_eq in T. subst r. reflexivity. }
  split; [split; [vm_compute; split; discriminate|vm_compute; reflexivity]|]. vm_compute. discriminate.
Qed.
Print Assumptions C09_creation_after_packing_refuted.

Example C09_case : snd out9 = [2; 3; 2].
Proof. vm_compute. reflexivity. Qed.

(** Same for tetrahedra, with and without adjacency table.  Without it the list
    is not even rebuilt: [v\[0\]] is written instead of the link. *)
Definition ecreate (n : nat) : epool -> outcome (list Z) :=
  (fix go n s := match n with O => Ret [] | S n => '(r, s) <- newEltR 1 s (mkT 1 2 3 4 0 0 0 0) None true ;; l <- go n s ;; Ret (r :: l) end) n.
Definition three (adj : option (arr Z)) (nemax : Z) : outcome (list Z) :=
  s <- alloc_tets 3 nemax ;; s <- load_tets s (fun k => mkT k (k + 1) (k + 2) (k + 3) 0 0 0 0) ;;
  let s := mkE (ene s) (enil s) (emax s) (etet s) adj in
  '(_, s) <- delElt s 1 ;; '(_, s) <- delElt s 3 ;; '(_, s) <- pack_tetra s ;;
  ecreate 3 s.
(** One tetrahedron (number 1) is left after packing: no creation should return 1. *)
Example C09_tetra_case : three None 10 = Ret [2; 3; 1].
Proof. vm_compute. reflexivity. Qed.
Example C09_tetra_adja_case : three (Some (acalloc 21 0)) 4 = Ret [2; 3; 1].
Proof. vm_compute. reflexivity. Qed.

(** What holds: when the last two slots hold no stale link at the time of the
    packing (they were never used since the last growth), later creations are safe. *)
Inductive sreach : vpool -> vspec -> Prop :=
| sr_reach s st : vreach s st -> sreach s st
| sr_step s st o r slot s' : sreach s st -> vok_op st o -> vstep s o = Ret (r, slot, s') -> sreach s' (vnext st o r slot (vmax s'))
| sr_pack s st s' tet' nc : sreach s st -> (exists i, live_v s i) -> alost st = false ->
    vnp s < vmax s - 1 -> ptmp (aget (vpt s) (vmax s - 1)) = 0 -> ptmp (aget (vpt s) (vmax s)) = 0 ->
    pack_points s 0 (acalloc 1 tetra0) = Ret (s', tet', nc) ->
    sreach s' (mkVS (fun k => if (1 <=? k) && (k <=? vnp s') then Used (seen (aget (vpt s') k)) else Free) (vmax s') false).

Lemma pack_inv s st s' tet' nc : vinv s st -> (exists i, live_v s i) -> alost st = false ->
  vnp s < vmax s - 1 -> ptmp (aget (vpt s) (vmax s - 1)) = 0 -> ptmp (aget (vpt s) (vmax s)) = 0 ->
  pack_points s 0 (acalloc 1 tetra0) = Ret (s', tet', nc) ->
  vinv s' (mkVS (fun k => if (1 <=? k) && (k <=? vnp s') then Used (seen (aget (vpt s') k)) else Free) (vmax s') false).
Proof.
  intros [A [hw [top I]]] Hone El Hn Z1 Z2 E.
  pose proof (vi_sees _ _ _ _ _ I) as [[M1 [M2 M3]] _ _]. pose proof (vi_pxp _ _ _ _ _ I) as Px. pose proof (vi_xp _ _ _ _ _ I) as [X1 [X2 [X3 _]]].
  destruct (last_live (okf (vpt s)) (vnp s)) as [l [Rl [Ol Gl]]]. { destruct Hone as [i Hi]. apply live_ok in Hi. exists i. exact Hi. }
  destruct (pack_points_ok s 0 (acalloc 1 tetra0) l) as [s2 [t2 [E2 [P1 [P2 [P3 [P4 [P5 [P6 [_ [P8 [_ [_ [P11 [P12 [P13 [P14 P15]]]]]]]]]]]]]]]]].
  1: lia. 1: lia. 1: lia. 1: exact Ol. 1: exact Gl. 1: intros i Hi; apply Px; lia. 1: cbn; lia. 1: intros; lia. 1: intros; lia.
  rewrite E in E2. injection E2 as <- _ _. set (P := vplan (vpt s) l) in *.
  assert (HlP : 0 <= plen P <= l).
  { split; [unfold plen; lia|]. unfold P, vplan. pose proof (plan_len (okf (vpt s)) (Z.to_nat l) 1 l ltac:(lia) (or_intror Ol)). lia. }
  exists [], (plen P), (Z.max (plen P + 1) (vmax s - 1)).
  set (st' := mkVS _ _ _).
  assert (Hc : forall k, acell st' k = if (1 <=? k) && (k <=? plen P) then Used (seen (aget (vpt s') k)) else Free) by (intros k; unfold st'; cbn [acell]; rewrite P1; reflexivity).
  assert (Hpk : forall k, 1 <= k <= plen P -> vok (aget (vpt s') k) = true).
  { intros k Hk. rewrite P8 by exact Hk. change (vok (mark1 (aget (vpt s) (src P k)) k) = true). apply vok_mark1.
    assert (Hin : forall x, In x P -> okf (vpt s) x = true) by (intros x Hx; unfold P, vplan in Hx; apply plan_in in Hx; [tauto|lia|right; exact Ol]).
    apply Hin, src_in. exact Hk. }
  constructor; cbn [app].
  - constructor; rewrite ?P1, ?P3.
    + unfold st'. cbn [amax]. rewrite P3. split; [reflexivity|]. split; [lia|]. lia.
    + intros i d. rewrite Hc. destruct (Z.leb_spec 1 i), (Z.leb_spec i (plen P)); cbn [andb]; intros Q; try discriminate.
      injection Q as <-. split; [lia|]. split; [reflexivity|]. apply Hpk. lia.
    + intros i Hi. rewrite Hc. destruct (Z.leb_spec 1 i), (Z.leb_spec i (plen P)); cbn [andb]; intros Q; try discriminate; lia.
  - rewrite P2, P3. destruct (Z.leb_spec (vmax s - 1) (plen P)); [lia|]. apply FInv_relink.
    + lia.
    + intros k. unfold occ. rewrite Hc. destruct (Z.leb_spec 1 k), (Z.leb_spec k (plen P)); cbn [andb]; split; try discriminate; try lia; reflexivity.
    + intros k Hk. unfold tmps. apply P11. lia.
    + intros k Hk Hk2. unfold tmps. rewrite P14 by lia. assert (C : k = vmax s - 1 \/ k = vmax s) by lia. destruct C as [->| ->]; assumption.
  - rewrite P1, P3. lia.
  - intros k [].
  - intros k Hk. rewrite Hc. destruct (Z.leb_spec 1 k), (Z.leb_spec k (plen P)); cbn [andb]; intros Q; try discriminate; lia.
  - intros k Hk. rewrite Hc. destruct (Z.leb_spec 1 k), (Z.leb_spec k (plen P)); cbn [andb]; intros Q; try discriminate; lia.
  - rewrite P4, P5. unfold st'. cbn [alost]. split; [exact X1|]. split; [exact X2|]. split; [intros _; apply X3; exact El | discriminate].
  - rewrite P3, P5. intros k Hk. destruct (Z_le_gt_dec k (plen P)) as [Hle|Hgt].
    + rewrite P8 by lia. cbn [set_tmp mark1 pxp]. apply Px.
      assert (Hin : forall x, In x P -> 1 <= x <= l) by (intros x Hx; unfold P, vplan in Hx; apply plan_in in Hx; [lia|lia|right; exact Ol]).
      pose proof (Hin _ (src_in P k ltac:(lia))). lia.
    + destruct (P15 k ltac:(lia)) as [Q|Q]; rewrite Q; [apply Px; exact Hk|lia].
  - intros _ k. rewrite Hc. destruct (_ && _); discriminate.
Qed.

Theorem C09_creation_after_packing_partial : forall s st, sreach s st ->
  vsees s st /\ forall o, vok_op st o -> exists r slot s', vstep s o = Ret (r, slot, s') /\ vfits st o r slot (vmax s').
Proof.
  intros s st R. assert (I : vinv s st).
  { induction R as [s st R | s st o r slot s' _ IH Hok E | s st s' tet' nc _ IH H1 H2 H3 H4 H5 E].
    - exact (vreach_inv s st R).
    - exact (vstep_inv s st o r slot s' IH Hok E).
    - exact (pack_inv s st s' tet' nc IH H1 H2 H3 H4 H5 E). }
  split.
  - destruct I as [L [A [top I]]]. exact (vi_sees _ _ _ _ _ I).
  - intros o Ho. exact (vprogress s st o I Ho).
Qed.
Print Assumptions C09_creation_after_packing_partial.

(** ** A mesh with holes *)
Definition ex_pts : arr point :=
  mkArr 10 (aget (aof point0 [mkP 10 (-3) 0 0 0 0; mkP 0 0 0 9 0 MG_NUL; mkP 30 1 1 5 0 (64 + 4 + 32); mkP 40 2 0 0 7 16; mkP 0 0 0 2 0 MG_NUL; mkP 60 0 0 0 0 32; mkP 70 0 2 0 0 1])).
Definition ex_s : vpool := mkV 7 5 9 ex_pts 2 3.
Definition ex_adj : arr Z := mkArr 29 (fun k => if k =? 1 then 16 else if k =? 13 then 4 else 0).
Definition ex_e : epool :=
  mkE 4 2 6 (mkArr 7 (aget (aof tetra0 [mkT 1 3 4 6 5 0 0 0; tetra0; mkT 1 3 4 7 6 0 0 0; mkT 7 3 4 6 8 0 0 0]))) (Some ex_adj).
Definition ex_m : arr Z := mkArr 20 (fun k => 100 + k).

Ltac four H := match type of H with ?a <= ?i < ?b => let C := fresh in assert (C : i = 0 \/ i = 1 \/ i = 2 \/ i = 3) by lia; destruct C as [->|[->|[->| ->]]] end.
Lemma ex_live k : live_e ex_e k -> k = 1 \/ k = 3 \/ k = 4.
Proof.
  intros [H1 H2]. cbn [ene ex_e] in H1. assert (C : k = 1 \/ k = 2 \/ k = 3 \/ k = 4) by lia.
  destruct C as [->|[->|C]]; [tauto|vm_compute in H2; discriminate|tauto].
Qed.
Example C07_case_hyps : packable ex_s ex_e 2 ex_m.
Proof.
  constructor.
  - split; [vm_compute; discriminate|reflexivity].
  - exists 1. split; [vm_compute; split; discriminate|reflexivity].
  - intros i Hi. cbn [vnp ex_s] in Hi. assert (C : i = 1 \/ i = 2 \/ i = 3 \/ i = 4 \/ i = 5 \/ i = 6 \/ i = 7) by lia.
    destruct C as [->|[->|[->|[->|[->|[->| ->]]]]]]; vm_compute; split; discriminate.
  - split; [vm_compute; split; discriminate|reflexivity].
  - intros _. split; [vm_compute; split; discriminate|reflexivity].
  - intros k i Hk Hi. apply ex_live in Hk. four Hi; destruct Hk as [->|[->| ->]]; (split; [vm_compute; split; discriminate|reflexivity]).
  - split; [reflexivity|vm_compute; discriminate].
  - intros adj Ea. injection Ea as <-. split; [reflexivity|]. intros k i Hk Hi. apply ex_live in Hk.
    assert (L1 : live_e ex_e 1) by (split; [vm_compute; split; discriminate|reflexivity]).
    assert (L4 : live_e ex_e 4) by (split; [vm_compute; split; discriminate|reflexivity]).
    destruct Hk as [->|[->| ->]]; four Hi; try (left; reflexivity); right.
    + exists 4, 0. repeat (split; [first [assumption|lia|reflexivity]|]). reflexivity.
    + exists 1, 0. repeat (split; [first [assumption|lia|reflexivity]|]). reflexivity.
Qed.
Example C07_case :
  match packMesh ex_s ex_e 2 ex_m with
  | Ret (r, s, e, m, nc) => r = 1 /\ vnp s = 5 /\ ene e = 3 /\ nc = 2 /\
      map (fun k => (pc (aget (vpt s) k), pref (aget (vpt s) k), ptag (aget (vpt s) k))) [1;2;3;4;5] = [(10,3,0);(70,0,1);(30,1,32);(40,2,16);(60,0,32)] /\
      map (fun k => map (tv (aget (etet e) k)) [0;1;2;3]) [1;2;3] = [[1;3;4;5];[2;3;4;5];[1;3;4;2]] /\
      map (aget m) [2;3;4;5;6;7;8;9;10;11] = [102;103;114;115;106;107;108;109;112;113] /\
      match eadj e with Some a => map (aget a) [1;2;3;4;5;6;7;8;9;10;11;12] = [8;0;0;0;4;0;0;0;0;0;0;0] | None => False end
  | Stuck => False end.
Proof. vm_compute. repeat split; reflexivity. Qed.

(** Packing a mesh without live vertex is undefined: the loops run below index 1. *)
Example C07_no_vertex : pack_points (mkV 0 1 3 (acalloc 4 point0) 0 0) 0 (acalloc 1 tetra0) = Stuck.
Proof. vm_compute. reflexivity. Qed.

(** Hypotheses of the partial C09: a first vertex deleted in an array with room. *)
Example C09_partial_case :
  match (s <- alloc_pts 3 8 0 ;; s <- delPt s 2 ;; '(s, _, _) <- pack_points s 0 (acalloc 1 tetra0) ;;
         '(r, s) <- newPt s 5 0 None ;; '(r2, s) <- newPt s 6 0 None ;; Ret [vnp s; r; r2]) with
  | Ret l => l = [4; 3; 4] | Stuck => False end.
Proof. vm_compute. reflexivity. Qed.
