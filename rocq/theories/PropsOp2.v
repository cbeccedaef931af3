(** Swap of an edge, split of an edge and insertion of a point in a triangular mesh (C35). *)
From Coq Require Import ZArith List Lia Bool.
From Verif Require Import CBase Chain Op2Model Op2Spec Op2Proofs Op2Split Op2Split2 Op2Check.
Import ListNotations.
Open Scope Z_scope.

Lemma conf_symmetric m : conforming m -> symmetric m.
Proof.
  intros (_ & _ & O & A) k i Lk Li N. destruct (nbr_of m k i O A Lk Li N) as (l & j & Ll & Lj & E1 & E2 & _).
  rewrite E1, dec_div, dec_mod by exact Lj. auto.
Qed.

Lemma tri_at_is m t u x y z : loc u -> tri_at m t u x y z -> is_tri m t x y z.
Proof.
  intros Lu (A & B & C). exists u. split; [exact Lu|]. unfold inxt2 in B. unfold iprv2 in C.
  destruct Lu as [->|[->| ->]]; cbn in *; auto.
Qed.

Lemma nxt_mod i : loc i -> inxt2 i = (i + 1) mod 3.
Proof. intros [->|[->| ->]]; reflexivity. Qed.
Lemma prv_mod i : loc i -> iprv2 i = (i + 2) mod 3.
Proof. intros [->|[->| ->]]; reflexivity. Qed.

Lemma neigh m k i l j : conforming m -> live m k -> loc i -> loc j -> nb m k i = 3 * l + j -> nb m k i <> 0 -> nbr m k i l j.
Proof.
  intros (_ & _ & O & A) Lk Li Lj E N. destruct (nbr_of m k i O A Lk Li N) as (l' & j' & H).
  pose proof H as (_ & Lj' & E1 & _). rewrite E in E1. destruct (enc_inj _ _ _ _ Lj Lj' E1) as [-> ->]. exact H.
Qed.

Lemma chain_head m n x l : chain m n (x :: l) -> n = x /\ 1 <= x /\ chain m (vtx m n 2) l.
Proof. intros H. inversion H; subst. repeat split; [lia|assumption]. Qed.

Lemma two_free_nil m : two_free m -> m_nil m <> 0 /\ vtx m (m_nil m) 2 <> 0.
Proof.
  intros (x & y & r & H). apply chain_head in H. destruct H as (E & B & H). apply chain_head in H. destruct H as (E2 & B2 & _).
  split; lia.
Qed.

(** The swap of the edge [i] of triangle [k], between the triangles [k] = ([p],[a],[b]) and
    [l] = ([q],[b],[a]).  Either the edge is kept because it has a tag (a reference or
    a ridge, or a required edge), and nothing changes; or the two triangles become ([p],[a],[q]) and
    ([q],[b],[p]), the others are not touched and the mesh is conforming. *)
Theorem swap_conforming m k i l j p a b q :
  conforming m -> live m k -> loc i -> loc j -> nb m k i = 3 * l + j -> nb m k i <> 0 ->
  vtx m k i = p -> vtx m k ((i + 1) mod 3) = a -> vtx m k ((i + 2) mod 3) = b -> vtx m l j = q ->
  p <> q -> not_an_edge m p q ->
  exists r m', swapar m k i = Ret (r, m') /\
  ((r = 0 /\ m' = m /\ Z.land (tag m k i) 39 <> 0) \/
   (r = 1 /\ Z.land (tag m k i) 39 = 0 /\ conforming m' /\ symmetric m' /\ (tags_agree m -> tags_agree m') /\ m_ptag m' = m_ptag m /\
    (forall x, live m' x <-> live m x) /\
    is_tri m' k p a q /\ is_tri m' l q b p /\
    (forall x, x <> k -> x <> l -> same_tri m m' x))).
Proof.
  intros C Lk Li Lj E N Ep Ea Eb Eq Hpq Hfr. pose proof C as (T & V & O & A).
  pose proof (neigh m k i l j C Lk Li Lj E N) as HN. pose proof HN as (Ll & _).
  rewrite <- nxt_mod in Ea by exact Li. rewrite <- prv_mod in Eb by exact Li.
  pose proof (live_intab m k T Lk) as Ik.
  assert (B39 : MG_EDG (tag m k i) = false /\ MG_SIN (tag m k i) = false <-> Z.land (tag m k i) 39 = 0).
  { unfold MG_EDG, MG_SIN, has_tag. rewrite !orb_false_iff, !negb_false_iff, !Z.eqb_eq.
    change 39 with (Z.lor (Z.lor MG_GEO MG_REF) (Z.lor MG_CRN MG_REQ)). rewrite !Z.land_lor_distr_r, !Z.lor_eq_0_iff. reflexivity. }
  destruct (MG_EDG (tag m k i) || MG_SIN (tag m k i)) eqn:Tg.
  - exists 0, m. split.
    + unfold swapar. rewrite (get_t_ok m k Ik). cbn [bind]. unfold tag in Tg. rewrite Tg. reflexivity.
    + left. split; [reflexivity|]. split; [reflexivity|]. intros X. apply B39 in X. destruct X as [X Y]. rewrite X, Y in Tg. discriminate.
  - apply orb_false_iff in Tg. destruct Tg as [Tg1 Tg2].
    destruct (swap_run m k i l j T V O A Lk Li HN Tg1 Tg2) as (m' & R & SF & HVt & HTg & HEd & HNb).
    rewrite Ep, Eq in HVt.
    exists 1, m'. split; [exact R|]. right. split; [reflexivity|]. split; [apply B39; auto|].
    destruct (sw_all m m' k i l j V O A Lk Li HN p q a b Ep Eq Ea Eb Hpq Hfr SF HVt HNb) as (O' & A' & Tg').
    pose proof (sw_vertices m m' k i l j V Lk Li HN p q a b Ep Eq Ea Eb Hpq SF HVt HNb) as V'.
    pose proof (sw_tables m m' k i l j T V Lk Li HN p q Ep Eq SF HVt HNb) as T'.
    assert (C' : conforming m') by (split; [exact T'|split; [exact V'|split; [exact O'|exact A']]]).
    split; [exact C'|]. split; [apply conf_symmetric, C'|]. split; [apply Tg'; assumption|].
    split; [apply SF|]. split; [intros x; exact (sw_live m m' k i l j V Lk Li HN p q Ep Eq SF HVt HNb x)|].
    split; [|split].
    + apply (tri_at_is m' k i); [exact Li|]. split; [|split].
      * exact (sw_k_i _ _ _ _ _ _ V Lk Li HN _ _ Ep HVt).
      * exact (sw_k_n _ _ _ _ _ _ V Lk Li HN _ _ _ Ea HVt).
      * exact (sw_k_p _ _ _ _ _ _ V Lk Li HN _ _  HVt).
    + apply (tri_at_is m' l j); [exact Lj|]. split; [|split].
      * exact (sw_l_j _ _ _ _ _ _ V Lk Li HN _ _ Eq HVt).
      * exact (sw_l_n _ _ _ _ _ _ V Lk Li HN _ _ _ Eb HVt).
      * exact (sw_l_p _ _ _ _ _ _ _ _  HVt).
    + intros x X1 X2 y Ly. eapply sw_other; eassumption.
Qed.

(** The split of the edge [i] of triangle [k] = ([p],[a],[b]) at the new point [ip].  On
    the boundary, the triangle becomes ([p],[a],[ip]) and ([p],[ip],[b]); inside, the neighbour
    ([q],[b],[a]) becomes ([q],[ip],[a]) and ([q],[b],[ip]) too.  The split fails only when
    the free list has less than two triangles. *)
Theorem split_conforming m k i ip p a b :
  conforming m -> live m k -> loc i -> alive m ip -> unused m ip ->
  vtx m k i = p -> vtx m k ((i + 1) mod 3) = a -> vtx m k ((i + 2) mod 3) = b ->
  (nb m k i <> 0 -> vtx m (nb m k i / 3) (nb m k i mod 3) <> p) ->
  exists r m', split1b m k i ip = Ret (r, m') /\ m_ptag m' = m_ptag m /\ (two_free m -> r = 1) /\
  (r = 0 \/
   r = 1 /\ conforming m' /\ symmetric m' /\ (tags_agree m -> tags_agree m') /\
   is_tri m' k p a ip /\
   ((nb m k i = 0 /\
     exists e, ~ live m e /\ (forall x, live m' x <-> live m x \/ x = e) /\ is_tri m' e p ip b /\
       (forall x, live m x -> x <> k -> same_tri m m' x)) \/
    (nb m k i <> 0 /\
     exists l q e f, l = nb m k i / 3 /\ q = vtx m l (nb m k i mod 3) /\
       ~ live m e /\ ~ live m f /\ e <> f /\ (forall x, live m' x <-> live m x \/ x = e \/ x = f) /\
       is_tri m' e p ip b /\ is_tri m' l q ip a /\ is_tri m' f q b ip /\
       (forall x, live m x -> x <> k -> x <> l -> same_tri m m' x)))).
Proof.
  intros C Lk Li Aip Hip Ep Ea Eb Hpq. pose proof C as (T & V & O & A).
  rewrite <- nxt_mod in Ea by exact Li. rewrite <- prv_mod in Eb by exact Li.
  assert (TF : two_free m -> m_nil m <> 0 /\ vtx m (m_nil m) 2 <> 0).
  { apply two_free_nil. }
  destruct (Z.eq_dec (nb m k i) 0) as [N0|N0].
  - destruct (split1b_bdy m k i ip p a b T V O A Lk Li Aip Hip Ep Ea Eb N0) as (r & m' & R & P & [(-> & Z0 & _)|(-> & C' & Tg & e & Ne & Le & X1 & X2 & X3)]).
    + exists 0, m'. split; [exact R|]. split; [exact P|]. split; [|auto]. intros H. destruct (TF H). contradiction.
    + exists 1, m'. split; [exact R|]. split; [exact P|]. split; [reflexivity|]. right. split; [reflexivity|]. split; [exact C'|].
      split; [apply conf_symmetric, C'|]. split; [exact Tg|]. split; [exact (tri_at_is _ _ _ _ _ _ Li X1)|]. left. split; [exact N0|].
      exists e. split; [exact Ne|]. split; [exact Le|]. split; [exact (tri_at_is _ _ _ _ _ _ Li X2)|].
      intros x Lx Nx y Ly. apply X3; assumption.
  - destruct (nbr_of m k i O A Lk Li N0) as (l & j & HN). pose proof HN as (Ll & Lj & E1 & _). specialize (Hpq N0).
    rewrite E1, dec_div, dec_mod in Hpq by exact Lj.
    destruct (split1b_in m k i l j ip p a b (vtx m l j) T V O A Lk Li HN Aip Hip Ep Ea Eb eq_refl (not_eq_sym Hpq))
      as (r & m' & R & P & [(-> & Z0)|(-> & C' & Tg & e & f & Ne & Nf & Nef & Le & X1 & X2 & X3 & X4 & X5)]).
    + exists 0, m'. split; [exact R|]. split; [exact P|]. split; [|auto]. intros H. destruct (TF H). tauto.
    + exists 1, m'. split; [exact R|]. split; [exact P|]. split; [reflexivity|]. right. split; [reflexivity|]. split; [exact C'|].
      split; [apply conf_symmetric, C'|]. split; [exact Tg|]. split; [exact (tri_at_is _ _ _ _ _ _ Li X1)|]. right. split; [exact N0|].
      exists l, (vtx m l j), e, f. rewrite E1, dec_div, dec_mod by exact Lj. split; [reflexivity|]. split; [reflexivity|].
      split; [exact Ne|]. split; [exact Nf|]. split; [exact Nef|]. split; [exact Le|].
      split; [exact (tri_at_is _ _ _ _ _ _ Li X2)|]. split; [exact (tri_at_is _ _ _ _ _ _ Lj X3)|]. split; [exact (tri_at_is _ _ _ _ _ _ Lj X4)|].
      intros x Lx Nx Nx2 y Ly. apply X5; assumption.
Qed.

(** The insertion of a point in triangle [k] = ([p],[a],[b]), compiled without assertions and
    with two free triangles: the triangle becomes ([p],[ip],[b]), ([p],[a],[ip]), ([ip],[a],[b]). *)
Theorem splitbar_conforming m k ip p a b :
  conforming m -> two_free m -> live m k -> alive m ip -> unused m ip ->
  vtx m k 0 = p -> vtx m k 1 = a -> vtx m k 2 = b ->
  exists m' e f, splitbar false m k ip = Ret (1, m') /\ m_ptag m' = m_ptag m /\ conforming m' /\ symmetric m' /\
  ~ live m e /\ ~ live m f /\ e <> f /\ (forall x, live m' x <-> live m x \/ x = e \/ x = f) /\
  is_tri m' k p ip b /\ is_tri m' e p a ip /\ is_tri m' f ip a b /\
  (forall x, live m x -> x <> k -> same_tri m m' x).
Proof.
  intros C TF Lk Aip Hip Ep Ea Eb. pose proof C as (T & V & O & A).
  assert (N : m_nil m <> 0 /\ vtx m (m_nil m) 2 <> 0).
  { apply two_free_nil, TF. }
  destruct N as [R1 R2].
  destruct (splitbar_run m k ip p a b T V O A Lk Aip Hip Ep Ea Eb R1 R2) as (m' & e & f & R & P & C' & X1 & X2 & X3 & X4 & X5 & X6 & X7 & X8).
  exists m', e, f. assert (L0 : loc 0) by (left; reflexivity).
  repeat (split; [first [exact R|exact P|exact C'|apply conf_symmetric, C'|exact X1|exact X2|exact X3|exact X4|
     exact (tri_at_is _ _ _ _ _ _ L0 X5)|exact (tri_at_is _ _ _ _ _ _ L0 X6)|exact (tri_at_is _ _ _ _ _ _ L0 X7)]|]).
  intros x Lx Nx y Ly. apply X8; assumption.
Qed.

(** * Concrete meshes *)
Lemma run_wit (o : outcome (Z * mesh)) r (P : mesh -> bool) :
  match o with Ret (x, m') => (x =? r) && P m' | Stuck => false end = true -> exists m', o = Ret (r, m') /\ P m' = true.
Proof. destruct o as [[x m']|]; [|discriminate]. rewrite andb_true_iff, Z.eqb_eq. intros [-> H]. exists m'. auto. Qed.

Definition is_trib (m : mesh) (t u x y z : Z) : bool := (vtx m t u =? x) && (vtx m t ((u + 1) mod 3) =? y) && (vtx m t ((u + 2) mod 3) =? z).
Lemma is_trib_ok m t u x y z : loc u -> is_trib m t u x y z = true -> is_tri m t x y z.
Proof. unfold is_trib. rewrite !andb_true_iff, !Z.eqb_eq. intros L [[A B] C]. exists u. auto. Qed.

(** The square of the triangles (1,2,3) and (1,3,4), with [n] free triangles, the point 5 not
    being used, and what the memory allows. *)
Definition square (frees : list tria) (nil : Z) (gaps : list (Z * bool)) : mesh :=
  let l := [triangle 1 2 3; triangle 1 3 4] ++ frees in
  let n := Z.of_nat (length l) in
  mkMesh (aof tzero l) (mkArr (3 * n + 5) (aget (aof 0 [0; 8; 0; 0; 0; 4]))) (acalloc 9 0) nil 2 n gaps.

Definition sq3 : mesh := square [free 4; free 0; free 0] 3 [].
Definition sq1 : mesh := square [free 0; free 0] 3 [].

Lemma sq3_conforming : conforming sq3.
Proof. apply conformingb_ok. vm_compute. reflexivity. Qed.

Example swap_case : exists m', swapar sq3 1 1 = Ret (1, m') /\ conforming m' /\ is_tri m' 1 2 3 4 /\ is_tri m' 2 4 1 2.
Proof.
  destruct (swap_conforming sq3 1 1 2 2 2 3 1 4) as (r & m' & R & [(-> & _ & X)|(-> & _ & C & _ & _ & _ & _ & X1 & X2 & _)]);
    try reflexivity; try lia.
  - apply sq3_conforming.
  - apply liveb_ok. reflexivity.
  - right. left. reflexivity.
  - right. right. reflexivity.
  - vm_compute. discriminate.
  - apply not_an_edgeb_ok. vm_compute. reflexivity.
  - exfalso. apply X. reflexivity.
  - exists m'. auto.
Qed.

Lemma sq3_two_free : two_free sq3.
Proof. exists 3, 4, []. apply (chainb_ok 5). vm_compute. reflexivity. Qed.

Example split_case : exists m', split1b sq3 1 1 5 = Ret (1, m') /\ conforming m' /\ is_tri m' 1 2 3 5.
Proof.
  destruct (split_conforming sq3 1 1 5 2 3 1) as (r & m' & R & _ & H & [->|(-> & C & _ & _ & X & _)]); try reflexivity.
  - apply sq3_conforming.
  - apply liveb_ok. reflexivity.
  - right. left. reflexivity.
  - apply aliveb_ok. reflexivity.
  - apply unusedb_ok. vm_compute. reflexivity.
  - intros _. vm_compute. discriminate.
  - specialize (H sq3_two_free). discriminate.
  - exists m'. auto.
Qed.

Lemma sq1_conforming : conforming sq1.
Proof. apply conformingb_ok. vm_compute. reflexivity. Qed.

Example split_bdy_case : exists m', split1b sq1 1 2 5 = Ret (1, m') /\ conforming m' /\ is_tri m' 1 3 1 5 /\ is_tri m' 3 3 5 2.
Proof.
  destruct (run_wit (split1b sq1 1 2 5) 1 (fun m => is_trib m 3 2 3 5 2)) as (m' & R & X2); [vm_compute; reflexivity|].
  destruct (split_conforming sq1 1 2 5 3 1 2) as (r & m2 & R2 & _ & _ & [->|(-> & C & _ & _ & X & _)]); try reflexivity.
  - apply sq1_conforming.
  - apply liveb_ok. reflexivity.
  - right. right. reflexivity.
  - apply aliveb_ok. reflexivity.
  - apply unusedb_ok. vm_compute. reflexivity.
  - intros N. exfalso. apply N. reflexivity.
  - congruence.
  - assert (m2 = m') as -> by congruence. exists m'. split; [exact R|]. split; [exact C|]. split; [exact X|].
    apply (is_trib_ok m' 3 2); [right; right; reflexivity|exact X2].
Qed.

(** The split of an edge after which the table is enlarged. *)
Example split_realloc_case : exists m', split1b (square [free 0; free 0] 3 [(4, true)]) 1 1 5 = Ret (1, m') /\ conforming m'.
Proof.
  destruct (run_wit (split1b (square [free 0; free 0] 3 [(4, true)]) 1 1 5) 1 conformingb) as (m' & R & C); [vm_compute; reflexivity|].
  exists m'. split; [exact R|apply conformingb_ok, C].
Qed.

Example splitbar_case : exists m' e f, splitbar false sq3 1 5 = Ret (1, m') /\ conforming m' /\ is_tri m' e 1 2 5 /\ is_tri m' f 5 2 3.
Proof.
  destruct (splitbar_conforming sq3 1 5 1 2 3) as (m' & e & f & R & _ & C & _ & _ & _ & _ & _ & _ & X1 & X2 & _); try reflexivity.
  - apply sq3_conforming.
  - apply sq3_two_free.
  - apply liveb_ok. reflexivity.
  - apply aliveb_ok. reflexivity.
  - apply unusedb_ok. vm_compute. reflexivity.
  - exists m', e, f. auto.
Qed.

(** * Findings *)
(** When the memory runs out at the second triangle of an interior split, [MMG2D_split1b]
    returns [0] with half of the edge split, and its caller deletes the new point: a
    triangle in use has a deleted vertex, and the table is no longer that of the mesh. *)
Theorem split_nomem_refuted : exists m k i ip m',
  conforming m /\ live m k /\ loc i /\ alive m ip /\ unused m ip /\
  adpspl_split m k i ip = Ret (0, m') /\
  live m' k /\ ~ vertices_ok m' /\ ~ adjacent m' /\ ~ symmetric m'.
Proof.
  destruct (run_wit (adpspl_split sq1 1 1 5) 0 (fun m => liveb m 1 && liveb m 3 && (vtx m 1 0 =? 5) && (aget (m_ptag m) 5 =? MG_NUL) &&
     (nb m 1 1 =? 8) && negb (pair_eqb (ends m 2 2) (swp (ends m 1 1))) && (nb m 3 1 =? 8) && (nb m 2 2 =? 4))) as (m' & R & X); [vm_compute; reflexivity|].
  rewrite !andb_true_iff, !Z.eqb_eq, !liveb_ok, negb_true_iff in X. destruct X as (((((((Lk & Lk3) & X1) & X2) & X3) & X4) & X5) & X6).
  exists sq1, 1, 1, 5, m'. split; [apply sq1_conforming|].
  split; [apply liveb_ok; reflexivity|]. split; [right; left; reflexivity|]. split; [apply aliveb_ok; reflexivity|].
  split; [apply unusedb_ok; vm_compute; reflexivity|]. split; [exact R|].
  assert (L1 : loc 1) by (right; left; reflexivity). assert (L2 : loc 2) by (right; right; reflexivity).
  split; [exact Lk|]. split; [|split].
  - intros V. destruct (V 1 Lk) as ((_ & X) & _). rewrite X1, X2 in X. lia.
  - intros A. destruct (A 1 1 Lk L1) as [[E _]|(l & j & _ & Lj & E & X)]; [lia|].
    assert (E2 : 3 * 2 + 2 = 3 * l + j) by lia.
    destruct (enc_inj _ _ _ _ L2 Lj E2) as [<- <-]. apply pair_eqb_ok in X. congruence.
  - intros S. destruct (S 3 1 Lk3 L1) as [_ X]; [lia|]. rewrite X5 in X. change (8 / 3) with 2 in X. change (8 mod 3) with 2 in X. lia.
Qed.

(** [MMG2D_splitbar] keeps a pointer to the triangle across the allocation of the two new
    ones: when the table is enlarged meanwhile the pointer is dangling and the
    vertices are written through it, although the memory was granted. *)
Theorem splitbar_realloc_refuted : exists m k ip g,
  conforming m /\ live m k /\ alive m ip /\ unused m ip /\ m_gaps m = [(g, true)] /\ 1 <= g /\
  forall dbg, splitbar dbg m k ip = Stuck.
Proof.
  exists (square [free 0; free 0] 3 [(5, true)]), 1, 5, 5. split; [apply conformingb_ok; vm_compute; reflexivity|].
  split; [apply liveb_ok; reflexivity|]. split; [apply aliveb_ok; reflexivity|]. split; [apply unusedb_ok; vm_compute; reflexivity|].
  split; [reflexivity|]. split; [lia|]. intros dbg. vm_compute. reflexivity.
Qed.

(** The triangles (1,2,3) and (1,3,4) at places 1 and 128 of the table. *)
Definition far : mesh :=
  mkMesh (mkArr 132 (fun k => if k =? 1 then triangle 1 2 3 else if k =? 128 then triangle 1 3 4 else if k =? 129 then free 130 else free 0))
    (mkArr 398 (fun n => if n =? 2 then 386 else if n =? 384 then 4 else 0)) (acalloc 9 0) 129 128 131 [].

(** With the assertions compiled, [MMG2D_splitbar] stops on a valid mesh as soon as the neighbour
    through edge 1 has a number larger than 127: the number is kept in a [int8_t]. *)
Theorem splitbar_assert_refuted : exists m k ip,
  conforming m /\ two_free m /\ live m k /\ alive m ip /\ unused m ip /\
  splitbar true m k ip = Stuck /\ exists m', splitbar false m k ip = Ret (1, m') /\ conforming m'.
Proof.
  assert (C : conforming far) by (apply conformingb_ok; vm_compute; reflexivity).
  assert (TF : two_free far) by (exists 129, 130, []; apply (chainb_ok 5); vm_compute; reflexivity).
  assert (Lk : live far 1) by (apply liveb_ok; reflexivity).
  assert (Ai : alive far 5) by (apply aliveb_ok; reflexivity).
  assert (U : unused far 5) by (apply unusedb_ok; vm_compute; reflexivity).
  exists far, 1, 5. split; [exact C|]. split; [exact TF|]. split; [exact Lk|]. split; [exact Ai|]. split; [exact U|].
  split; [vm_compute; reflexivity|].
  destruct (splitbar_conforming far 1 5 1 2 3 C TF Lk Ai U eq_refl eq_refl eq_refl) as (m' & e & f & R & _ & C' & _).
  exists m'. auto.
Qed.

(** The square with a reference on the diagonal. *)
Definition sqtag : mesh :=
  let t a b c i := mkTria (tv (triangle a b c)) (fun n => if n =? i then MG_REF else 0) (fun n => if n =? i then 7 else 0) 0 in
  let l := [t 1 2 3 1; t 1 3 4 2; free 4; free 0; free 0] in
  mkMesh (aof tzero l) (mkArr 20 (aget (aof 0 [0; 8; 0; 0; 0; 4]))) (acalloc 9 0) 3 2 5 [].

(** [MMG2D_splitbar] removes the tags and the references of the outer edges of the triangle
    (and leaves those copied on the new edges) instead of the opposite: the two triangles of an edge
    no longer agree on its tag. *)
Theorem splitbar_tags_refuted : exists m k ip m',
  conforming m /\ two_free m /\ tags_agree m /\ live m k /\ alive m ip /\ unused m ip /\
  splitbar false m k ip = Ret (1, m') /\ conforming m' /\ ~ tags_agree m'.
Proof.
  destruct (run_wit (splitbar false sqtag 1 5) 1 (fun m => conformingb m && liveb m 1 && (nb m 1 1 =? 8) && (tag m 1 1 =? 0) && (tag m 2 2 =? MG_REF)))
    as (m' & R & X); [vm_compute; reflexivity|].
  rewrite !andb_true_iff, !Z.eqb_eq, liveb_ok in X. destruct X as ((((C & Lk) & X1) & X2) & X3).
  exists sqtag, 1, 5, m'. split; [apply conformingb_ok; vm_compute; reflexivity|].
  split; [exists 3, 4, []; apply (chainb_ok 5); vm_compute; reflexivity|]. split; [apply tagsb_ok; vm_compute; reflexivity|].
  split; [apply liveb_ok; reflexivity|]. split; [apply aliveb_ok; reflexivity|]. split; [apply unusedb_ok; vm_compute; reflexivity|].
  split; [exact R|]. split; [apply conformingb_ok, C|]. intros T.
  destruct (T 1 1 Lk) as [Y _]; [right; left; reflexivity|lia|]. rewrite X1, X2 in Y.
  change (tag m' (8 / 3) (8 mod 3)) with (tag m' 2 2) in Y. rewrite X3 in Y. discriminate.
Qed.

(** When the memory allows the enlargement of the triangles but not that of the adjacency table,
    [MMG2D_TRIA_REALLOC] leaves the free list pointing beyond the adjacency table.  The
    split which failed is skipped, the next one succeeds and the third writes out of the table. *)
Theorem realloc_adja_refuted : exists m m1 m2 g,
  conforming m /\ m_gaps m = [(g, false)] /\ 1 <= g /\ alive m 5 /\ alive m 6 /\ alive m 7 /\
  adpspl_split m 1 1 5 = Ret (0, m1) /\ adpspl_split m1 1 1 6 = Ret (1, m2) /\
  live m2 1 /\ alive m2 7 /\ unused m2 7 /\ oriented m2 /\ adjacent m2 /\ vertices_ok m2 /\
  adpspl_split m2 1 0 7 = Stuck.
Proof.
  destruct (run_wit (adpspl_split (square [free 0] 0 [(10, false)]) 1 1 5) 0 (fun m1 =>
     match adpspl_split m1 1 1 6 with
     | Ret (r, m2) => (r =? 1) && (liveb m2 1 && aliveb m2 7 && unusedb m2 7 && orientedb m2 && adjacentb m2 && verticesb m2 &&
         match adpspl_split m2 1 0 7 with Stuck => true | _ => false end)
     | Stuck => false end)) as (m1 & R1 & X); [vm_compute; reflexivity|].
  destruct (run_wit _ 1 (fun m2 => liveb m2 1 && aliveb m2 7 && unusedb m2 7 && orientedb m2 && adjacentb m2 && verticesb m2 &&
         match adpspl_split m2 1 0 7 with Stuck => true | _ => false end) X) as (m2 & R2 & Y).
  rewrite !andb_true_iff in Y. destruct Y as ((((((Y1 & Y2) & Y3) & Y4) & Y5) & Y6) & Y7).
  exists (square [free 0] 0 [(10, false)]), m1, m2, 10.
  split; [apply conformingb_ok; vm_compute; reflexivity|]. split; [reflexivity|]. split; [lia|].
  split; [apply aliveb_ok; reflexivity|]. split; [apply aliveb_ok; reflexivity|]. split; [apply aliveb_ok; reflexivity|].
  split; [exact R1|]. split; [exact R2|]. split; [apply liveb_ok, Y1|]. split; [apply aliveb_ok, Y2|]. split; [apply unusedb_ok, Y3|].
  split; [apply orientedb_ok, Y4|]. split; [apply adjacentb_ok, Y5|]. split; [apply verticesb_ok, Y6|].
  destruct (adpspl_split m2 1 0 7); [discriminate|reflexivity].
Qed.

Print Assumptions swap_conforming.
Print Assumptions split_conforming.
Print Assumptions splitbar_conforming.
Print Assumptions split_nomem_refuted.
Print Assumptions splitbar_realloc_refuted.
Print Assumptions splitbar_assert_refuted.
Print Assumptions splitbar_tags_refuted.
Print Assumptions realloc_adja_refuted.
