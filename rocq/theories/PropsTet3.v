(** Balls, shells and collapses in a tetrahedral mesh (C46, C47). *)
From Coq Require Import ZArith List Lia Bool.
From Verif Require Import CBase Tet3Model Tet3Spec Tet3Proofs Tet3Ball Tet3Shell Tet3Turn Tet3Coquil Tet3Tag Tet3Pool Tet3Col Tet3Out Tet3Run Tet3Check.
Import ListNotations.
Open Scope Z_scope.

(** ** The ball of a vertex *)

(** The ball returned holds every tetrahedron of the vertex, each of them once, with the place of the vertex; the
    search gives up only when there are more than [MMG3D_LMAX-2] of them. *)
Theorem ball_complete m start ip : conforming m -> flags_ok m -> live m start -> loc ip ->
  let p := vtx m start ip in
  ball_connected m p ->
  (boulevolp m start ip = Ret None /\
   exists ks, NoDup ks /\ Z.of_nat (length ks) > LMAX - 2 /\ forall k, In k ks -> live m k /\ has m k p) \/
  (exists m2 l, boulevolp m start ip = Ret (Some (m2, l)) /\ but_flags m m2 /\ flags_ok m2 /\
   hd 0 l = 4 * start + ip /\ NoDup (map (fun e => e / 4) l) /\
   (forall k, In k (map (fun e => e / 4) l) <-> live m k /\ has m k p) /\
   (forall e, In e l -> vtx m (e / 4) (e mod 4) = p)).
Proof.
  intros (T & V & A) F L Li p BC.
  destruct (boulevolp_ok m T V A start ip L Li F) as [[R (ks & ND & N & H)]|(m2 & l & R & BF & _ & F2 & (r & E) & ND & BL & HE)].
  - left. split; [exact R|]. exists ks. split; [exact ND|]. split; [exact N|]. intros k I. destruct (H k I) as (H1 & H2 & _). auto.
  - right. exists m2, l. split; [exact R|]. split; [exact BF|]. split; [exact F2|]. split; [rewrite E; reflexivity|]. split; [exact ND|]. split.
    + intros k. rewrite (BL k). split.
      * intros B. apply BL in B. unfold els in B. apply in_map_iff in B. destruct B as (e & <- & I). destruct (HE e I) as (k & i & -> & Lk & Lk' & Ek).
        rewrite dec_div by exact Lk'. split; [exact Lk|exists i; auto].
      * intros [Lk Hk]. apply BC; [exact L|exact Lk|exists ip; auto|exact Hk].
    + intros e I. destruct (HE e I) as (k & i & -> & Lk & Lk' & Ek). rewrite dec_div, dec_mod by exact Lk'. exact Ek.
Qed.

(** ** The shell of an edge *)

(** The shell returned holds every tetrahedron of the edge, each of them once, with the place of the edge; the parity of
    the result says whether the shell is open. *)
Theorem shell_complete m start ia : conforming m -> xt_ok m -> live m start -> 0 <= ia <= 5 ->
  let p := vtx m start (fst (iare ia)) in let q := vtx m start (snd (iare ia)) in
  shell_connected m p q ->
  exists r l b, coquil m start ia = Ret (r, l, b) /\
  ( (r = 0 /\ exists k, live m k /\ has m k p /\ has m k q /\ required m k) \/
    (r = -1 /\ exists ks, NoDup ks /\ Z.of_nat (length ks) > LMAX - 3 /\ forall k, In k ks -> live m k /\ has m k p /\ has m k q) \/
    (0 < r /\ r / 2 = Z.of_nat (length l) /\ NoDup (map (fun e => e / 6) l) /\
     (forall k, In k (map (fun e => e / 6) l) <-> live m k /\ has m k p /\ has m k q) /\
     (forall e, In e l -> edge_is m (e / 6) (e mod 6) p q) /\
     (forall k, live m k -> has m k p -> has m k q -> k <> start -> ~ required m k) /\
     (r mod 2 = 1 <-> exists k i, live m k /\ loc i /\ on_face m k i p /\ on_face m k i q /\ nb m k i = 0)) ).
Proof.
  intros (T & V & A) X L IA p q SC. pose proof (edge_locs ia IA) as (La & Lb & _).
  assert (HS : forall k, shell m p q start k <-> live m k /\ has m k p /\ has m k q).
  { intros k. split.
    - intros B. induction B as [|y z B IH Lz (i & j & Li & Lj & S & O1 & O2)].
      + split; [exact L|]. split; [exists (fst (iare ia))|exists (snd (iare ia))]; auto.
      + split; [exact Lz|]. split; apply (on_has m z j), S; assumption.
    - intros (Lk & H1 & H2). apply SC; auto; [exists (fst (iare ia))|exists (snd (iare ia))]; auto. }
  destruct (coquil_ok m T V A X start ia L IA) as (r & l & b & R & C). exists r, l, b. split; [exact R|].
  destruct C as [(E & k & S & Q)|[(E & ks & ND & N & H)|(E & N & ND & EX & ED & NR & OP & _)]].
  - left. split; [exact E|]. exists k. apply HS in S. tauto.
  - right. left. split; [exact E|]. exists ks. split; [exact ND|]. split; [exact N|]. intros k I. apply HS, H, I.
  - right. right. split; [exact E|]. split; [exact N|]. split; [exact ND|]. split; [intros k; rewrite EX; apply HS|]. split; [exact ED|]. split.
    + intros k Lk H1 H2 Nk. apply NR; [apply HS; auto|exact Nk].
    + rewrite OP. unfold open_shell. split; intros (k & i & S & Li & O1 & O2 & Z0); exists k, i.
      * apply HS in S. tauto.
      * repeat split; auto. apply HS. split; [exact S|]. split; [apply (on_has _ _ _ _ O1)|apply (on_has _ _ _ _ O2)].
Qed.

(** The mark of the boundary is right when the marks of the two sides of a face agree. *)
Theorem shell_boundary m start ia r l b : conforming m -> xt_ok m -> marks_ok m -> live m start -> 0 <= ia <= 5 ->
  coquil m start ia = Ret (r, l, b) -> 0 < r ->
  (b = true <-> bdy_shell m (vtx m start (fst (iare ia))) (vtx m start (snd (iare ia))) start).
Proof.
  intros (T & V & A) X M L IA R P. destruct (coquil_ok m T V A X start ia L IA) as (r' & l' & b' & R' & C). rewrite R in R'. injection R' as <- <- <-.
  destruct C as [(E & _)|[(E & _)|(_ & _ & _ & _ & _ & _ & _ & B)]]; [lia|lia|]. exact (B M).
Qed.

(** ** The tags of an edge *)

(** [MMG5_settag] reaches the edge in every tetrahedron that has it, and nothing else. *)
Theorem settag_everywhere m start ia tag edg : conforming m -> xt_ok m -> xt_own m -> live m start -> 0 <= ia <= 5 ->
  let p := vtx m start (fst (iare ia)) in let q := vtx m start (snd (iare ia)) in
  exists m2, settag m start ia tag edg = Ret (1, m2) /\ but_xt m m2 /\
  (forall k i, shell m p q start k -> edge_is m k i p q -> qxt (aget (m_tet m) k) <> 0 ->
     let x := aget (m_xt m) (qxt (aget (m_tet m) k)) in let x2 := aget (m_xt m2) (qxt (aget (m_tet m) k)) in
     (forall b, has_tag b MG_NOSURF = false -> Z.land b tag = b -> Z.land b (xtag x2 i) = b) /\
     (forall b, has_tag b MG_NOSURF = false -> Z.land b (xtag x i) = b -> Z.land b (xtag x2 i) = b) /\
     xedg x2 i = Z.max (xedg x i) edg /\
     (forall j, j <> i -> xtag x2 j = xtag x j /\ xedg x2 j = xedg x j) /\ xref x2 = xref x /\ xftag x2 = xftag x /\ xori x2 = xori x) /\
  (forall x, (forall k, shell m p q start k -> qxt (aget (m_tet m) k) = x -> x = 0) -> aget (m_xt m2) x = aget (m_xt m) x).
Proof.
  intros (T & V & A) X XO L IA p q. destruct (shell_set_ok (fun i x => settag_x x i tag edg) m T V A X XO start ia L IA) as (m2 & R & B & H1 & H2).
  exists m2. split; [exact R|]. split; [exact B|]. split; [|exact H2]. intros k i S E N. cbv zeta. rewrite (H1 k i S E N).
  set (x := aget (m_xt m) (qxt (aget (m_tet m) k))). unfold settag_x.
  assert (LD : forall b t, has_tag b MG_NOSURF = false -> Z.land b t = b -> Z.land b (Z.ldiff t MG_NOSURF) = b).
  { intros b t Hb Ht. unfold has_tag in Hb. apply negb_false_iff, Z.eqb_eq in Hb. apply Z.bits_inj'. intros n Hn.
    assert (E1 : Z.testbit (Z.land b MG_NOSURF) n = false) by (rewrite Hb; apply Z.bits_0). rewrite <- Ht at 2. rewrite !Z.land_spec, Z.ldiff_spec. rewrite Z.land_spec in E1.
    destruct (Z.testbit b n), (Z.testbit MG_NOSURF n), (Z.testbit t n); try discriminate; reflexivity. }
  assert (LO : forall b s t, Z.land b s = b -> Z.land b (Z.lor s t) = b).
  { intros b s t Hs. apply Z.bits_inj'. intros n Hn. rewrite <- Hs at 2. rewrite !Z.land_spec, Z.lor_spec.
    assert (E1 : Z.testbit (Z.land b s) n = Z.testbit b n) by (rewrite Hs; reflexivity). rewrite Z.land_spec in E1.
    destruct (Z.testbit b n), (Z.testbit s n); try discriminate; reflexivity. }
  cbn [xtag xedg xref xftag xori]. rewrite !upd_same.
  split; [|split; [|split; [reflexivity|split; [|auto]]]].
  - intros b Hb Ht. destruct (_ || _); [apply LD; [exact Hb|]|]; rewrite Z.lor_comm; apply LO, Ht.
  - intros b Hb Ht. destruct (_ || _); [apply LD; [exact Hb|]|]; apply LO, Ht.
  - intros j Nj. rewrite !upd_other by exact Nj. auto.
Qed.

(** [MMG5_deltag] removes the tag in every tetrahedron that has the edge and a boundary face at it, and nothing else. *)
Theorem deltag_everywhere m start ia tag : conforming m -> xt_ok m -> xt_own m -> live m start -> 0 <= ia <= 5 ->
  let p := vtx m start (fst (iare ia)) in let q := vtx m start (snd (iare ia)) in
  exists m2, deltag m start ia tag = Ret (1, m2) /\ but_xt m m2 /\
  (forall k i, shell m p q start k -> edge_is m k i p q -> qxt (aget (m_tet m) k) <> 0 ->
     let x := aget (m_xt m) (qxt (aget (m_tet m) k)) in let x2 := aget (m_xt m2) (qxt (aget (m_tet m) k)) in
     (fbdy m k (fst (ifar i)) = true \/ fbdy m k (snd (ifar i)) = true -> Z.land (xtag x2 i) tag = 0) /\
     (forall b, Z.land b tag = 0 -> Z.land b (xtag x2 i) = Z.land b (xtag x i)) /\
     (forall j, j <> i -> xtag x2 j = xtag x j) /\ xedg x2 = xedg x /\ xref x2 = xref x /\ xftag x2 = xftag x /\ xori x2 = xori x) /\
  (forall x, (forall k, shell m p q start k -> qxt (aget (m_tet m) k) = x -> x = 0) -> aget (m_xt m2) x = aget (m_xt m) x).
Proof.
  intros (T & V & A) X XO L IA p q. destruct (shell_set_ok (fun i x => deltag_x x i tag) m T V A X XO start ia L IA) as (m2 & R & B & H1 & H2).
  exists m2. split; [exact R|]. split; [exact B|]. split; [|exact H2]. intros k i S E N. cbv zeta. rewrite (H1 k i S E N). unfold fbdy. rewrite (proj2 (Z.eqb_neq _ 0) N). cbn [negb andb].
  set (x := aget (m_xt m) (qxt (aget (m_tet m) k))). unfold deltag_x.
  destruct (has_tag (xftag x (fst (ifar i))) MG_BDY || has_tag (xftag x (snd (ifar i))) MG_BDY) eqn:HB.
  - cbn [xtag xedg xref xftag xori]. rewrite !upd_same. split; [|split; [|split; [intros j Nj; apply upd_other, Nj|auto]]].
    + intros _. apply Z.bits_inj'. intros n Hn. rewrite Z.land_spec, Z.ldiff_spec, Z.bits_0. destruct (Z.testbit _ n), (Z.testbit tag n); reflexivity.
    + intros b Hb. apply Z.bits_inj'. intros n Hn. assert (E1 : Z.testbit (Z.land b tag) n = false) by (rewrite Hb; apply Z.bits_0). rewrite Z.land_spec in E1.
      rewrite !Z.land_spec, Z.ldiff_spec. destruct (Z.testbit b n), (Z.testbit tag n), (Z.testbit (xtag x i) n); try discriminate; reflexivity.
  - apply orb_false_iff in HB. destruct HB as [B1 B2]. rewrite B1, B2. repeat split; auto. intros [?|?]; discriminate.
Qed.

(** ** The collapse *)

Theorem tet_collapse_conforming m start ip iq : conforming m -> no_twins m -> flags_ok m ->
  live m start -> loc ip -> loc iq -> ip <> iq ->
  let p := vtx m start ip in let q := vtx m start iq in
  ball_connected m p -> contractible m p q ->
  (exists m', collapse m start ip iq = Ret (0, m') /\ but_flags m m' /\
     ((exists ks, NoDup ks /\ Z.of_nat (length ks) > LMAX - 2 /\ forall k, In k ks -> live m k /\ has m k p) \/ exists k n, would_merge m p q k n)) \/
  (exists m', collapse m start ip iq = Ret (p, m') /\ conforming m' /\ no_twins m' /\
     (forall k, live m' k <-> live m k /\ ~ (has m k p /\ has m k q)) /\
     (forall k i, live m' k -> loc i -> vtx m' k i = (if vtx m k i =? p then q else vtx m k i)) /\
     (forall k, live m' k -> qref (aget (m_tet m') k) = qref (aget (m_tet m) k)) /\
     (forall k, live m' k -> ~ has m' k p)).
Proof.
  intros C NT F L Li Lq N p q BC CT. destruct (collapse_ok m start ip iq C NT F L Li Lq N BC CT) as [(m' & R & BF & H)|(m' & R & C' & NT' & (D1 & D2 & D3) & _)].
  - left. exists m'. split; [exact R|]. split; [exact BF|]. destruct H as [(ks & ND & LE & H)|H]; [left|right; exact H].
    exists ks. split; [exact ND|]. split; [exact LE|]. intros k I. destruct (H k I) as (H1 & H2 & _). auto.
  - right. exists m'. split; [exact R|]. split; [exact C'|]. split; [exact NT'|]. split; [exact D1|]. split; [exact D2|]. split; [intros k Lk; apply D3, Lk|].
    intros k Lk (a & La & E). rewrite D2 in E by assumption. unfold ren in E. fold p q in E. destruct (Z.eqb_spec (vtx m k a) p) as [E1|]; [|congruence].
    destruct C as (_ & V & _). destruct (V start L) as [_ J]. apply N, J; try assumption. exact (eq_sym E).
Qed.

(** ** Concrete cases *)

(** A tetrahedron cut in four by an inner point 5, and a fifth one on the face 1, 2, 3. *)
Definition bdyx (fs : list Z) : xtet := mkXt (fun _ => 0) (fun i => if mem i fs then MG_BDY else 0) (fun _ => 0) (fun _ => 0) 15.
Definition five : mesh :=
  build 8 [([5;2;3;4], 0, 1); ([1;5;3;4], 0, 2); ([1;2;5;4], 0, 3); ([1;2;3;5], 0, 0); ([6;1;3;2], 0, 4)]
    [0; 8; 12; 16; 5; 0; 13; 17; 6; 10; 0; 18; 7; 11; 15; 20; 19; 0; 0; 0] [bdyx [0]; bdyx [1]; bdyx [2]; bdyx [1;2;3]].
Example five_conforming : conforming five /\ no_twins five /\ flags_ok five.
Proof. split; [apply confb_ok; vm_compute; reflexivity|]. split; [apply ntb_ok; vm_compute; reflexivity|apply flb_ok; vm_compute; reflexivity]. Qed.
Example five_live k : 1 <= k <= 5 -> live five k.
Proof. intros H. apply liveb_ok. assert (K : k = 1 \/ k = 2 \/ k = 3 \/ k = 4 \/ k = 5) by lia. destruct K as [->|[->|[->|[->| ->]]]]; vm_compute; reflexivity. Qed.
Example five_ball : ball_connected five (vtx five 4 3).
Proof. apply (bcb_ok _ _ 2). vm_compute. reflexivity. Qed.

Example ball_case : runs (boulevolp five 4 3) (fun r => match r with Some (_, l) => sameb l [19; 14; 9; 4] | None => false end) = true.
Proof. vm_compute. reflexivity. Qed.
(** Edge 1, 5 has a closed shell of three, edge 1, 2 an open one. *)
Example shell_cases : coquil five 4 2 = Ret (6, [26; 12; 19], false) /\ coquil five 4 0 = Ret (7, [18; 24; 34], true).
Proof. split; vm_compute; reflexivity. Qed.
Example five_marks : xt_ok five /\ xt_own five.
Proof.
  split.
  - intros k L. pose proof (all_k_ok five (fun k => (0 <=? qxt (aget (m_tet five) k)) && (qxt (aget (m_tet five) k) <? alen (m_xt five))) eq_refl k L) as K.
    cbv beta in K. apply andb_true_iff in K. rewrite Z.leb_le, Z.ltb_lt in K. exact K.
  - intros k l Lk Ll E N.
    pose proof (all_k_ok five _ (all_k_ok five (fun k => all_k five (fun l => negb (qxt (aget (m_tet five) k) =? qxt (aget (m_tet five) l)) || (qxt (aget (m_tet five) k) =? 0) || (k =? l))) eq_refl k Lk) l Ll) as K.
    cbv beta in K. rewrite E, Z.eqb_refl in K. rewrite E in N. rewrite (proj2 (Z.eqb_neq _ 0) N) in K. cbn in K. apply Z.eqb_eq, K.
Qed.
Example settag_case : runs (settag five 4 0 2 9) (fun r => match r with (a, m2) => (a =? 1) &&
  (xtag (aget (m_xt m2) 3) 0 =? 2) && (xedg (aget (m_xt m2) 4) 4 =? 9) && (xtag (aget (m_xt m2) 4) 3 =? 0) && (xtag (aget (m_xt m2) 1) 0 =? 0) end) = true.
Proof. vm_compute. reflexivity. Qed.

(** Point 5 goes to point 1: three tetrahedra disappear, the fifth one gets a new neighbour. *)
Example collapse_hyp : contractible five (vtx five 4 3) (vtx five 4 0).
Proof. apply ctb_ok. vm_compute. reflexivity. Qed.
Example collapse_case : runs (collapse five 4 3 0) (fun r => match r with (a, m2) => (a =? 5) && liveb m2 1 && negb (liveb m2 2) && negb (liveb m2 3) && negb (liveb m2 4) && liveb m2 5 &&
  (vtx m2 1 0 =? 1) && (nb m2 1 3 =? 20) && (nb m2 5 0 =? 7) end) = true.
Proof. vm_compute. reflexivity. Qed.

(** With a sixth tetrahedron on the other side the collapse would give twice the same one: it is refused. *)
Definition closed : mesh :=
  build 8 [([5;2;3;4], 0, 0); ([1;5;3;4], 0, 0); ([1;2;5;4], 0, 0); ([1;2;3;5], 0, 0); ([1;2;4;3], 0, 0)]
    [20; 8; 12; 16; 5; 21; 13; 17; 6; 10; 23; 18; 7; 11; 15; 22; 4; 9; 19; 14] [].
Example closed_hyp : conforming closed /\ no_twins closed /\ flags_ok closed /\ ball_connected closed (vtx closed 4 3) /\ contractible closed (vtx closed 4 3) (vtx closed 4 0).
Proof.
  split; [apply confb_ok; vm_compute; reflexivity|]. split; [apply ntb_ok; vm_compute; reflexivity|]. split; [apply flb_ok; vm_compute; reflexivity|].
  split; [apply (bcb_ok _ _ 2); vm_compute; reflexivity|apply ctb_ok; vm_compute; reflexivity].
Qed.
Example collapse_refused : runs (collapse closed 4 3 0) (fun r => fst r =? 0) = true.
Proof. vm_compute. reflexivity. Qed.

(** ** The condition on the faces is needed *)

(** [MMG5_colver] tests only for tetrahedra that would be there twice.  Two vertices joined to the same points by faces
    that are not those of a common tetrahedron give three tetrahedra on a face: the caller has to exclude them. *)
Definition loose : mesh :=
  build 8 [([5;1;2;3], 0, 0); ([5;2;3;4], 0, 0); ([5;3;4;6], 0, 0); ([1;2;3;7], 0, 0); ([1;3;7;4], 0, 0); ([1;7;4;6], 0, 0)]
    [19; 11; 0; 0; 0; 15; 0; 5; 0; 0; 0; 9; 0; 23; 0; 4; 0; 27; 0; 17; 0; 0; 0; 21] [].
Theorem tet_collapse_unchecked_refuted : exists m start ip iq m', conforming m /\ no_twins m /\ flags_ok m /\ live m start /\ loc ip /\ loc iq /\ ip <> iq /\
  ball_connected m (vtx m start ip) /\ collapse m start ip iq = Ret (vtx m start ip, m') /\ ~ conforming m'.
Proof.
  destruct (runs_ok (collapse loose 1 0 1) (fun r => match r with (a, m2) => (a =? 5) && liveb m2 3 && liveb m2 6 && fsame m2 3 1 6 1 && (nb m2 3 1 =? 0) end)) as ((a & m') & R & P); [vm_compute; reflexivity|].
  rewrite !andb_true_iff, !liveb_ok, !Z.eqb_eq in P. destruct P as [[[[P1 P2] P3] P4] P5]. subst a.
  exists loose, 1, 0, 1, m'. split; [apply confb_ok; vm_compute; reflexivity|]. split; [apply ntb_ok; vm_compute; reflexivity|]. split; [apply flb_ok; vm_compute; reflexivity|].
  split; [apply liveb_ok; vm_compute; reflexivity|]. split; [unfold loc; auto|]. split; [unfold loc; auto|]. split; [discriminate|].
  split; [apply (bcb_ok _ _ 2); vm_compute; reflexivity|]. split; [exact R|].
  intros (_ & V & A). apply fsame_ok in P4; [|unfold loc; auto|unfold loc; auto].
  assert (E : nb m' 3 1 = 4 * 6 + 1) by (apply nb_same; try assumption; try (unfold loc; auto); discriminate). rewrite P5 in E. discriminate.
Qed.

Print Assumptions ball_complete.
Print Assumptions shell_complete.
Print Assumptions shell_boundary.
Print Assumptions settag_everywhere.
Print Assumptions deltag_everywhere.
Print Assumptions tet_collapse_conforming.
Print Assumptions tet_collapse_unchecked_refuted.
