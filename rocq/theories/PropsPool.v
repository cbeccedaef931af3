(** Properties C05, C06, C32, C36, C37 and the composition of C32 with C04:
    allocation of vertices and tetrahedra, packing before hashing. *)
From Coq Require Import ZArith List Lia Bool Permutation.
From Verif Require Import CBase Chain MeshModel PoolModel PoolSpec PoolProofs PoolTet AdjaModel AdjaProofs PropsAdja.
Import ListNotations.
Open Scope Z_scope.

(** C05, vertices.  In every state reached by creations, creations with growth,
    deletions and overwritings, the mesh shows exactly the abstract contents
    (live vertices keep their data, deleted ones are invalid), and every further
    allowed call succeeds without undefined behaviour: a creation answers a slot
    that is free and inside the array; it answers 0 only when the list is
    exhausted or the boundary data of the vertex could not be allocated. *)
Theorem C05_vertex_pool : forall s st, vreach s st ->
  vsees s st /\
  forall o, vok_op st o -> exists r slot s', vstep s o = Ret (r, slot, s') /\ vfits st o r slot (vmax s').
Proof.
  intros s st R. pose proof (vreach_inv s st R) as I. split.
  - destruct I as [L [A [top I]]]. exact (vi_sees _ _ _ _ _ I).
  - intros o Ho. exact (vprogress s st o I Ho).
Qed.
Print Assumptions C05_vertex_pool.

(** C05, tetrahedra.  Same statement; histories also contain packings, and the
    adjacency rows of a deleted element are cleared. *)
Theorem C05_element_pool : forall s st, ereach s st ->
  esees s st /\
  forall o, eok_op st o -> exists r s', estep s o = Ret (r, s') /\ efits st o r (emax s').
Proof.
  intros s st R. pose proof (ereach_inv s st R) as I. split.
  - destruct I as [L I]. exact (ei_sees _ _ _ I).
  - intros o Ho. exact (eprogress s st o I Ho).
Qed.
Print Assumptions C05_element_pool.

(** Non-trivial history: creations, deletions (of the last, of an inner one),
    reuse, growth. *)
Fixpoint vrun (s : vpool) (ops : list vop) : outcome (list Z * vpool) :=
  match ops with
  | [] => Ret ([], s)
  | o :: ops => '(r, _, s1) <- vstep s o ;; '(l, s2) <- vrun s1 ops ;; Ret (r :: l, s2)
  end.
Example C05_case :
  match (s <- alloc_pts 2 6 1 ;;
    vrun s [PNew 30 0 None; PNew 40 16 (Some 4); PDel 3; PNew 31 17 (Some 4); PNew 50 0 None; PDel 1; PDel 4;
            PNew 41 16 (Some 4); PNew 11 0 None; PNew 51 0 None; PNewR 60 0 1 (Some 3) 1; PNewR 70 16 1 None 1; PNew 80 0 None]) with
  | Ret (l, s) => l = [3; 4; 0; 3; 5; 0; 0; 4; 1; 0; 6; 7; 8]
                  /\ vnp s = 8 /\ map (fun k => pc (aget (vpt s) (Z.of_nat k))) (seq 1 8) = [11; 0; 31; 41; 50; 60; 70; 80]
  | Stuck => False end.
Proof. vm_compute. tauto. Qed.

Definition t5 (a b c d : Z) : tetra := mkT a b c d 7 0 0 0.
Fixpoint erun (s : epool) (ops : list eop) : outcome (list Z * epool) :=
  match ops with
  | [] => Ret ([], s)
  | o :: ops => '(r, s1) <- estep s o ;; '(l, s2) <- erun s1 ops ;; Ret (r :: l, s2)
  end.
Definition eload : outcome epool := s <- alloc_tets 2 5 ;; load_tets s (fun k => t5 k 10 20 30).
Example C05_element_case :
  match (s <- eload ;; erun s [TNew 1 (t5 3 10 20 30) None; TDel 1; TDel 1; TNew 1 (t5 4 10 20 30) None; TNew 1 (t5 5 10 20 30) None;
      TNew 1 (t5 6 10 20 30) None; TAdj (Some (mkArr 25 (fun k => k))); TNew 1 (t5 7 10 20 30) (Some 4); TDel 3; TDel 6; TNew 1 (t5 8 1 1 1) None]) with
  | Ret (l, s) => l = [3; 1; 0; 1; 4; 0; 0; 5; 1; 0; 3] /\ ene s = 5 /\ emax s = 9
       /\ map (fun k => v0 (aget (etet s) (Z.of_nat k))) (seq 1 5) = [4; 2; 8; 5; 7]
       /\ (match eadj s with Some a => map (fun k => aget a (Z.of_nat k)) (seq 8 8) = [8; 0; 0; 0; 0; 13; 14; 15] | None => False end)
  | Stuck => False end.
Proof. vm_compute. repeat split; reflexivity. Qed.

(** ** C06 *)

(** With a spare slot the first creation stays inside the array. *)
Theorem C06_first_creation_partial : forall np npmax xpmax c tag grow ne nemax f mark t,
  0 <= np < npmax -> 0 <= xpmax -> tag_ok tag -> (forall g, grow = Some g -> 0 < g) ->
  0 <= ne < nemax -> (forall k, 1 <= k <= ne -> 0 < v0 (f k)) -> 0 < v0 t ->
  (exists r s, (s <- alloc_pts np npmax xpmax ;; newPt s c tag grow) = Ret (r, s) /\ 0 <= r <= npmax) /\
  (exists r s, (s <- alloc_tets ne nemax ;; s <- load_tets s f ;; newEltR mark s t None true) = Ret (r, s) /\ 0 <= r <= nemax).
Proof.
  intros np npmax xpmax c tag grow ne nemax f mark t H1 H2 H3 H4 H5 H6 H7. split.
  - destruct (alloc_pts_inv np npmax xpmax H1 H2) as [s [E I]]. rewrite E. cbn [bind].
    destruct (vprogress s _ (PNew c tag grow) I) as [r [slot [s' [E2 F]]]].
    + cbn [vok_op alost]. split; [exact H3|]. split; [exact H4|]. discriminate.
    + cbn [vstep] in E2. destruct (newPt s c tag grow) as [[r1 s1]|] eqn:E3; [|discriminate]. cbn [bind] in E2.
      injection E2 as E4 E5 E6. exists r1, s1. split; [reflexivity|]. cbn [vfits amax] in F. rewrite E4. 
      destruct F as [[_ [F _]]|[[F _]|[F _]]]; lia.
  - destruct (init_inv ne nemax f H5 H6) as [s0 [s [E0 [E I]]]]. rewrite E0. cbn [bind]. rewrite E. cbn [bind].
    destruct (newEltR_ok s _ mark t None I H7) as [r [s' [E2 [F _]]]]; [discriminate|].
    exists r, s'. split; [exact E2|]. cbn [efits esmax] in F. destruct F as [[_ [_ [F _]]]|[[g [F _]]|[F _]]]; try discriminate; lia.
Qed.
Print Assumptions C06_first_creation_partial.
Example C06_case_hyps : 0 <= 4 < 5 /\ tag_ok 16 /\ 0 < v0 (t5 1 2 3 4).
Proof. unfold tag_ok, MG_NUL. cbn. lia. Qed.

(** Without it, it does not: whenever the memory limit leaves less than two
    vertices' worth of room above what the input needs, the sizes are fixed to
    those of the input and the first creation writes past the end.  (MMG3D reports
    success for the repartition in this case.) *)
Theorem C06_tight_memory_overflows : forall z memMax np nt ne nprism nquad c tag grow mark t npmax nemax,
  0 <= np -> 0 <= ne -> np <= npmax -> ne <= nemax -> 0 < pt_bytes z ->
  used_mem z np nt ne nprism nquad <= memMax < used_mem z np nt ne nprism nquad + 2 * pt_bytes z ->
  exists npmax' nemax', memRepartition z memMax np nt ne nprism nquad npmax nemax = Some (npmax', nemax') /\
   (s <- alloc_pts np npmax' 0 ;; newPt s c tag grow) = Stuck /\
   (s <- alloc_tets ne nemax' ;; newEltR mark s t None true) = Stuck.
Proof.
  intros z memMax np nt ne nprism nquad c tag grow mark t npmax nemax Hnp Hne Hm1 Hm2 Hz Hmem.
  exists np, ne. unfold memRepartition. set (u := used_mem _ _ _ _ _ _) in *.
  destruct (Z.ltb_spec memMax u); [lia|]. rewrite Z.div_small by lia.
  split; [f_equal; f_equal; lia|].
  assert (Hoob : forall A (x : arr A) n, alen x = n + 1 -> rd x (n + 1) = Stuck).
  { intros A x n Hx. unfold rd, inb. rewrite Hx. destruct (Z.leb_spec 0 (n + 1)), (Z.ltb_spec (n + 1) (n + 1)); reflexivity || lia. }
  split.
  - unfold alloc_pts. destruct (link_pts_ok (np + 1) (np - 1) (acalloc (np + 1) point0)) as [a [E [L H2]]]; [lia|cbn; lia|].
    rewrite E. cbn [bind]. unfold newPt. cbn [vnil vnp vpt]. destruct (Z.eqb_spec (np + 1) 0); [lia|].
    rewrite Hoob by exact L. reflexivity.
  - unfold alloc_tets. destruct (link_tets_ok (ne + 1) (ne - 1) (acalloc (ne + 1) tetra0)) as [a [E [L H2]]]; [lia|cbn; lia|].
    rewrite E. cbn [bind]. unfold newEltR, newElt. cbn [enil ene etet]. destruct (Z.eqb_spec (ne + 1) 0); [lia|].
    rewrite Hoob by exact L. reflexivity.
Qed.
Print Assumptions C06_tight_memory_overflows.

(** Sizes of a 64-bit build (vertex 80 bytes and so on). *)
Definition sizes64 : sizes := mkSz 80 96 64 96 64 4 20 8 48 40.
Theorem C06_first_creation_refuted : exists z memMax np nt ne npmax nemax npmax' nemax',
  memRepartition z memMax np nt ne 0 0 npmax nemax = Some (npmax', nemax') /\ np <= npmax' /\
  (s <- alloc_pts np npmax' 0 ;; newPt s 5 0 None) = Stuck.
Proof.
  exists sizes64, (used_mem sizes64 1000 500 4000 0 0 + 100), 1000, 500, 4000, 500000, 3000000, 1000, 4000.
  vm_compute. repeat split; discriminate || reflexivity.
Qed.
Print Assumptions C06_first_creation_refuted.

(** ** C32 *)

(** Packing a mesh that holds at least one element succeeds; afterwards the
    elements 1..ne are valid, they are the former valid ones, and walking the free
    list from its head visits exactly ne+1 .. nemax. *)
Theorem C32_packing : forall s st, ereach s st -> eadj s = None -> 1 <= ene s ->
  exists s', paktet s = Ret (1, s') /\ emax s' = emax s /\ 1 <= ene s' <= ene s /\
    (forall k, 1 <= k <= ene s' -> eok (aget (etet s') k) = true) /\
    Permutation (map (aget (etet s')) (zrange 1 (ene s')))
                (filter eok (map (aget (etet s)) (zrange 1 (ene s)))) /\
    chain (fun k => v3 (aget (etet s') k)) (enil s') (zrange (ene s' + 1) (emax s')).
Proof.
  intros s st R Ha Hn. destruct (paktet_ok s st (ereach_inv s st R) Ha Hn) as [s' [E [Em [_ [Hr [I [C P]]]]]]].
  exists s'. split; [exact E|]. split; [exact Em|]. split; [exact Hr|]. split; [|split; [exact P | exact C]].
  intros k Hk. destruct I as [L I]. pose proof (ei_sees _ _ _ I) as [_ SU _ _].
  assert (Ek : ecell (mkES (cells_of s') (esmax st) None) k = Some (aget (etet s') k)).
  { cbn [ecell]. unfold cells_of. destruct (Z.leb_spec 1 k), (Z.leb_spec k (ene s')); reflexivity || lia. }
  destruct (SU _ _ Ek) as [_ [_ Ok]]. exact Ok.
Qed.
Print Assumptions C32_packing.

Example C32_case :
  match (s <- alloc_tets 6 9 ;; s <- load_tets s (fun k => t5 k 10 20 30) ;;
         '(_, s) <- erun s [TDel 2; TDel 5; TDel 1; TDel 6] ;; paktet s) with
  | Ret (r, s) => r = 1 /\ ene s = 2 /\ enil s = 3 /\ map (fun k => v0 (aget (etet s) (Z.of_nat k))) (seq 1 6) = [4; 3; 0; 0; 0; 0]
        /\ map (fun k => v3 (aget (etet s) (Z.of_nat k))) (seq 3 7) = [4; 5; 6; 7; 8; 9; 0]
  | Stuck => False end.
Proof. vm_compute. repeat split; reflexivity. Qed.

(** Packing an empty mesh fires an assertion (or is reported as a failure). *)
Example C32_empty : (s <- alloc_tets 0 3 ;; paktet s) = Stuck.
Proof. reflexivity. Qed.

(** ** C04 with holes: packing then hashing, as done by [MMG3D_hashTetra(mesh,1)]. *)
Theorem C04_adjacency_after_packing : forall inival s st, ereach s st -> eadj s = None -> 1 <= ene s -> 4 * ene s < inival ->
  (forall k, 1 <= k <= ene s -> eok (aget (etet s) k) = true -> forall i, 0 <= i < 4 -> 0 < tv (aget (etet s) k) i) ->
  exists s' adj, paktet s = Ret (1, s') /\ hashTetra inival (ene s') (emax s') (etet s') = Ret adj /\
    adj_fits (ene s') (etet s') adj /\ alen adj = 4 * emax s' + 5.
Proof.
  intros inival s st R Ha Hn Hi Hv.
  destruct (C32_packing s st R Ha Hn) as [s' [E [Em [Hr [Ok [P _]]]]]].
  assert (R' : ereach s' (mkES (cells_of s') (esmax st) None)) by (eapply ereach_pak; eauto).
  destruct (ereach_inv _ _ R') as [L' I']. pose proof (ei_sees _ _ _ I') as [[M1 [M2 M3]] _ _ _]. cbn [esmax] in *.
  assert (Pk : packed (ene s') (emax s') (etet s')).
  { split; [lia|]. split; [lia|]. intros k Hk i Hi4.
    assert (Hin : In (aget (etet s') k) (filter eok (map (aget (etet s)) (zrange 1 (ene s))))).
    { apply (Permutation_in _ P). apply in_map. apply in_zrange. exact Hk. }
    apply filter_In in Hin. destruct Hin as [Hin Hok]. apply in_map_iff in Hin. destruct Hin as [j [Ej Hj]].
    apply in_zrange in Hj. rewrite <- Ej. apply Hv; auto. rewrite Ej. exact Hok. }
  destruct (C04_adjacency inival (ene s') (emax s') (etet s') Pk ltac:(lia)) as [adj [E2 [L2 F]]].
  exists s', adj. auto.
Qed.
Print Assumptions C04_adjacency_after_packing.

Example C04_after_packing_case :
  match (s <- alloc_tets 4 6 ;; s <- load_tets s (fun k => if k =? 2 then t5 9 9 9 9 else if k =? 4 then t5 1 2 4 5 else if k =? 1 then t5 1 2 3 4 else t5 2 1 3 5) ;;
    '(_, s) <- erun s [TDel 2] ;; '(_, s) <- paktet s ;; hashTetra 1000 (ene s) (emax s) (etet s)) with
  | Ret adj => map (fun f => aget adj (Z.of_nat f)) (seq 1 16) = [0;0;11;15; 0;0;14;6; 0;0;10;7; 0;0;0;0]
  | Stuck => False end.
Proof. vm_compute. reflexivity. Qed.

(** ** C36: a creation that is reported as failed changes the mesh *)

(** A vertex appears although 0 is returned. *)
Theorem C36_failed_creation_refuted : exists s st c tag s',
  vreach s st /\ tag_ok tag /\ newPt s c tag None = Ret (0, s') /\
  vnp s' = vnp s + 1 /\ vok (aget (vpt s') (vnp s')) = true /\ pc (aget (vpt s') (vnp s')) = c.
Proof.
  destruct (alloc_pts 2 6 0) as [s|] eqn:E; [|discriminate].
  exists s. eexists. exists 77, 16.
  assert (R := vreach0 2 6 0 s ltac:(lia) ltac:(lia) E).
  injection E as E. 
  exists (mkV 3 4 6 (mkArr 7 (upd (aget (vpt s)) 3 (mkP 77 0 0 0 0 0))) 1 0).
  split; [exact R|]. split; [unfold tag_ok, MG_NUL; lia|]. rewrite <- E. vm_compute. repeat split; reflexivity.
Qed.
Print Assumptions C36_failed_creation_refuted.

(** The counter [xp] drifts: a later creation that is granted gets a boundary slot
    outside the array, and deleting that vertex writes there. *)
Example C36_drift :
  (s <- alloc_pts 0 9 0 ;; '(_, s) <- newPt s 1 16 None ;; '(_, s) <- newPt s 1 16 None ;;
   '(r, s) <- newPt s 5 16 (Some 1) ;; delPt s r) = Stuck.
Proof. reflexivity. Qed.

(** After such a failure the growth of the vertex array builds a list that
    goes twice through the same slot: two creations answer the same index. *)
Example C36_same_index_twice :
  match (s <- alloc_pts 0 1 0 ;;
     '(_, s) <- newPt s 1 0 None ;; '(_, s) <- newPtR s 2 0 None (Some 1) None true ;; '(_, s) <- newPtR s 3 0 None (Some 1) None true ;;
     s <- delPt s 2 ;; s <- delPt s 3 ;; s <- delPt s 1 ;;
     '(a, s) <- newPtR s 9 16 None (Some 1) (Some 1) true ;;
     '(b, s) <- newPt s 11 0 None ;; '(c, s) <- newPt s 12 0 None ;; Ret [a; b; c]) with
  | Ret l => l = [2; 3; 2] | Stuck => False end.
Proof. vm_compute. reflexivity. Qed.

(** ** C37: the adjacency table cannot grow *)

(** When the element array grows but the adjacency table cannot, the failure is
    reported but the mesh keeps the new size: further creations succeed and
    deleting such an element writes past the end of the table. *)
Definition out {A} (d : A) (x : outcome A) : A := match x with Ret a => a | Stuck => d end.
Definition e0 : epool := mkE 0 0 0 (acalloc 0 tetra0) None.
Definition c37_f (k : Z) : tetra := t5 k 10 20 30.
Definition c37_0 : epool := out e0 (alloc_tets 2 3).
Definition c37_1 : epool := out e0 (load_tets c37_0 c37_f).
Definition c37_2 : epool := snd (out (0, e0) (newEltR 0 c37_1 (t5 3 4 5 6) None true)).
Definition c37_3 : epool := mkE (ene c37_2) (enil c37_2) (emax c37_2) (etet c37_2) (Some (mkArr 17 (fun _ : Z => 0))).
Definition c37_4 : epool := snd (out (0, e0) (newEltR 0 c37_3 (t5 6 7 8 9) (Some 3) false)).
Definition c37_5 : epool := snd (out (0, e0) (newEltR 0 c37_4 (t5 6 7 8 9) None true)).
Definition c37_6 : epool := snd (out (0, e0) (newEltR 0 c37_5 (t5 6 7 8 9) None true)).

Theorem C37_refused_adjacency_growth_refuted : exists s st t s1 r1 s2 r2 s3,
  ereach s st /\ 0 < v0 t /\
  newEltR 0 s t (Some 3) false = Ret (0, s1) /\
  newEltR 0 s1 t None true = Ret (r1, s2) /\ newEltR 0 s2 t None true = Ret (r2, s3) /\
  r1 <> 0 /\ r2 <> 0 /\ delElt s3 r2 = Stuck.
Proof.
  exists c37_3. eexists. exists (t5 6 7 8 9), c37_4, 4, c37_5, 5, c37_6.
  split; [|split; [cbn; lia|]; split; [reflexivity|]; split; [reflexivity|]; split; [reflexivity|]; split; [lia|]; split; [lia|reflexivity]].
  refine (ereach1 c37_2 _ (TAdj (Some (mkArr 17 (fun _ : Z => 0)))) 0 c37_3 _ _ eq_refl).
  - refine (ereach1 c37_1 _ (TNew 0 (t5 3 4 5 6) None) 3 c37_2 _ _ eq_refl).
    + apply (ereach0 2 3 c37_f c37_0 c37_1); [lia | cbn; intros; lia | reflexivity | reflexivity].
    + cbn. split; [lia | discriminate].
  - cbn [eok_op]. intros x Ex. injection Ex as <-. reflexivity.
Qed.
Print Assumptions C37_refused_adjacency_growth_refuted.

(** The positive part of C36 and C37: a creation refused because the array cannot
    grow changes nothing. *)
Theorem C36_failed_creation_partial : forall s st mark t c tag g1 g2,
  (vreach s st -> tag_ok tag -> 0 < g1 -> 0 < g2 -> alost st = false ->
   forall s', newPtR s c tag (Some g1) None (Some g2) true = Ret (0, s') -> s' = s) /\
  (forall e est, ereach e est -> 0 < v0 t -> forall e', newEltR mark e t None true = Ret (0, e') -> e' = e).
Proof.
  intros s st mark t c tag g1 g2. split.
  - intros R Ht H1 H2 Hl s' E.
    pose proof (C05_vertex_pool s st R) as [_ P]. unfold newPtR in E.
    destruct (P (PNew c tag (Some g1))) as [r [slot [s1 [E1 F]]]].
    { cbn [vok_op]. split; [exact Ht|]. split; [intros g Eg; injection Eg as <-; exact H1 | congruence]. }
    cbn [vstep] in E1. destruct (newPt s c tag (Some g1)) as [[r1 s2]|] eqn:E2; [|discriminate].
    cbn [bind] in E, E1. injection E1 as E3 E4 E5. rewrite E3 in E.
    destruct (Z.eqb_spec r 0) as [Er|Nr]; [|injection E as E; congruence].
    cbn [growPt] in E. injection E as E6. cbn [vfits] in F. destruct F as [[F _]|[[_ [F _]]|[_ [_ [F _]]]]]; try congruence.
    unfold newPt in E2. rewrite E4, F in E2. cbn in E2. congruence.
  - intros e est R Ht e' E. unfold newEltR in E. destruct (Z.eq_dec (enil e) 0) as [Z0|Nz].
    + unfold newElt in E. rewrite Z0 in E. cbn in E. congruence.
    + destruct (newElt_fill e est mark t (ereach_inv _ _ R) Ht Nz) as [_ [_ [s1 [E1 [_ [a [E2 _]]]]]]].
      rewrite E1 in E. cbn [bind] in E. destruct (Z.eqb_spec (enil e) 0); [congruence|]. cbn [bind] in E.
      destruct (Z.eqb_spec (enil e) 0); [congruence|]. rewrite E2 in E. cbn [bind] in E. congruence.
Qed.
Print Assumptions C36_failed_creation_partial.
Example C36_case : exists s, (s0 <- alloc_pts 1 2 0 ;; '(_, s1) <- newPtR s0 1 16 (Some 1) None (Some 1) true ;; Ret s1) = Ret s
   /\ newPtR s 7 16 (Some 1) None (Some 1) true = Ret (0, s).
Proof. eexists. split; reflexivity. Qed.
