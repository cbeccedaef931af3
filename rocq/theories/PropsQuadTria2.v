(** Property C75: the sides between the quadrilaterals and the triangles of
    Mmg2d. *)
From Coq Require Import ZArith List Lia Bool Permutation.
From Verif Require Import CBase HashModel HashSpec HashInv HashCorrect SurfModel TriHashProofs Tria2 PropsTria2 Quad2 QuadTria2 PropsQuad2.
Import ListNotations.
Open Scope Z_scope.

(** ** Specification *)

(** A side of a quadrilateral and an edge of a triangle have the same vertices. *)
Definition meets (q : quad) (i : Z) (t : tri) (j : Z) : Prop := Permutation (qends q i) (ends t j).

(** The table [adj] of the quadrilaterals fits the mesh; [adja] is the table of
    the triangles. *)
Record fits_both (nt : Z) (ta : arr tri) (adja : arr Z) (nq : Z) (a : arr quad) (adj : arr Z) : Prop := {
  (* an entry is nil, or designates a side of another quadrilateral, which
     points back, or is minus a border edge of a triangle; the vertices agree *)
  fb_sym : forall k i, qside nq a k i -> qentry adj k i = 0 \/
     (exists l j, qside nq a l j /\ (l, j) <> (k, i) /\ qentry adj k i = 4 * l + j /\ qentry adj l j = 4 * k + i /\
        qcoincide (aget a k) i (aget a l) j) \/
     (exists l j, side nt ta l j /\ entry adja l j = 0 /\ qentry adj k i = - (3 * l + j) /\ meets (aget a k) i (aget ta l) j);
  fb_quad : forall k i l j, qside nq a k i -> qside nq a l j -> (l, j) <> (k, i) ->
     qcoincide (aget a k) i (aget a l) j -> qentry adj k i = 0 -> qentry adj l j <> 0;
  (* a side that meets a border edge of a triangle has a neighbour *)
  fb_tria : forall k i l j, qside nq a k i -> side nt ta l j -> meets (aget a k) i (aget ta l) j ->
     entry adja l j = 0 -> qentry adj k i <> 0
}.

(** ** Lemmas *)

Lemma meets_same q i t j : 0 <= i < 4 -> 0 <= j < 3 ->
  (meets q i t j <-> same_edge (t_v t (pv j)) (t_v t (nx j)) (q_v q (qa i)) (q_v q (qb i)) = true).
Proof.
  intros Hi Hj. unfold meets. rewrite (qends_ab q i Hi), (ends_perm t j Hj), qperm2, same_edge_key.
  unfold ekey. rewrite !pair_equal_spec. lia.
Qed.

(** ** C75 *)

(** [gr] grants every growth of the table of the edges. *)
Theorem hash_quads_triangles : forall inival siz max nt ntmax nq gr ta a,
  mesh2 nt ntmax ta -> meshq nq a -> no_holes nq a ->
  3 * nt < inival -> 4 * nq < inival -> 0 <= siz <= max -> (forall e, 1 <= gr e) ->
  exists adja adj, hash2 inival nt ntmax ta = Ret adja /\
    hashQuad inival siz max nt nq gr ta adja a = Ret adj /\ alen adj = 4 * nq + 5 /\
    fits_both nt ta adja nq a adj.
Proof.
  intros inival siz max nt ntmax nq gr ta a MT MQ NH Hi3 Hi4 Hs Hg.
  destruct (hash_2d_fits inival nt ntmax ta MT Hi3) as (adja & Ea & La & Fa).
  destruct (hash_quads_fits inival nq a MQ NH Hi4) as (adjq & Eq & Lq & Fq).
  destruct MT as (T1 & T2 & T3). destruct MQ as (Q1 & Q2 & Q3).
  destruct (hash_free_ok siz max nt gr ta adja Hs ltac:(lia) ltac:(lia) Hg T3) as (h & M & Eh & R & FM).
  assert (HM : forall x y, M x y <> Some 0).
  { intros x y E. specialize (FM x y). rewrite E in FM. destruct FM as (l & j & H & (? & ? & ? & ?) & _). lia. }
  assert (H0 : forall c, 1 <= c <= 4 * nq -> 0 <= aget adjq c).
  { intros c Hc. destruct (Quad2Hash.fel_range nq c Hc) as [R1 R2]. pose proof (qfel_dec c) as D.
    destruct (fq_sym _ _ _ Fq (Quad2Hash.fel c) (Quad2Hash.floc c)) as [Z0|(l & j & (S1 & S2 & S3) & _ & Z0 & _)].
    - split; [exact R1 | split; [apply NH; exact R1 | exact R2]].
    - unfold qentry in Z0. rewrite D in Z0. lia.
    - unfold qentry in Z0. rewrite D in Z0. lia. }
  destruct (seek_free_ok nq a h M adjq ltac:(lia) ltac:(lia) R Q3 H0 HM) as (adj & Ej & Lj & Gj).
  exists adja, adj. split; [exact Ea|]. split; [unfold hashQuad; rewrite Eq; cbn [bind]; rewrite Eh; cbn [bind]; exact Ej|].
  split; [lia|].
  assert (G : forall k i, qside nq a k i -> qentry adj k i =
     if qentry adjq k i =? 0 then match M (q_v (aget a k) (qa i)) (q_v (aget a k) (qb i)) with Some e => - e | None => 0 end
     else qentry adjq k i) by (intros k i (S1 & S2 & S3); exact (Gj k i S1 S2 S3)).
  assert (K : forall k i, qside nq a k i -> qentry adjq k i <> 0 -> qentry adj k i = qentry adjq k i).
  { intros k i S N. rewrite (G k i S). destruct (Z.eqb_spec (qentry adjq k i) 0); [contradiction | reflexivity]. }
  assert (Z : forall k i, qside nq a k i -> qentry adj k i = 0 -> qentry adjq k i = 0).
  { intros k i S N. destruct (Z.eq_dec (qentry adjq k i) 0) as [|Nz]; [assumption|]. rewrite (K k i S Nz) in N. exact N. }
  constructor.
  - intros k i S. destruct (fq_sym _ _ _ Fq k i S) as [Z0|(l & j & S1 & S2 & S3 & S4 & S5)].
    + rewrite (G k i S), Z0. cbn [Z.eqb]. specialize (FM (q_v (aget a k) (qa i)) (q_v (aget a k) (qb i))).
      destruct (M (q_v (aget a k) (qa i)) (q_v (aget a k) (qb i))) as [e|]; [right; right | left; reflexivity].
      destruct FM as (l & j & -> & (A1 & A2 & A3 & A4) & SE). exists l, j.
      split; [split; [exact A1 | split; [exact A2 | exact A3]]|]. split; [exact A4|]. split; [reflexivity|].
      apply meets_same; [destruct S as (_ & _ & ?); assumption | exact A3 | exact SE].
    + right. left. exists l, j. split; [exact S1|]. split; [exact S2|].
      rewrite (K k i S), (K l j S1).
      * auto.
      * rewrite S4. destruct S as (? & _ & ?). lia.
      * rewrite S3. destruct S1 as (? & _ & ?). lia.
  - intros k i l j S1 S2 N C Z0. apply (Z k i S1) in Z0.
    pose proof (fq_max _ _ _ Fq k i l j S1 S2 N C Z0) as Nz. rewrite (K l j S2 Nz). exact Nz.
  - intros k i l j S1 S2 C Fe Z0. pose proof (Z k i S1 Z0) as Zq. rewrite (G k i S1), Zq in Z0. cbn [Z.eqb] in Z0.
    pose proof S1 as (_ & _ & Hi). pose proof S2 as (B1 & B2 & B3).
    apply (meets_same _ _ _ _ Hi B3) in C.
    specialize (FM (q_v (aget a k) (qa i)) (q_v (aget a k) (qb i))).
    destruct (M (q_v (aget a k) (qa i)) (q_v (aget a k) (qb i))) as [e|] eqn:Em.
    + destruct (HM (q_v (aget a k) (qa i)) (q_v (aget a k) (qb i))). rewrite Em. f_equal. lia.
    + rewrite (FM l j) in C; [discriminate | split; [exact B1 | split; [exact B2 | split; [exact B3 | exact Fe]]] | lia].
Qed.
Print Assumptions hash_quads_triangles.

(** A side between a quadrilateral and a triangle, and no other element, is
    found. *)
Theorem interface_found : forall inival siz max nt ntmax nq gr ta a,
  mesh2 nt ntmax ta -> meshq nq a -> no_holes nq a ->
  3 * nt < inival -> 4 * nq < inival -> 0 <= siz <= max -> (forall e, 1 <= gr e) ->
  exists adja adj, hash2 inival nt ntmax ta = Ret adja /\
    hashQuad inival siz max nt nq gr ta adja a = Ret adj /\
    forall k i l j, qside nq a k i -> side nt ta l j -> meets (aget a k) i (aget ta l) j ->
      (forall m n, qside nq a m n -> qcoincide (aget a k) i (aget a m) n -> (m, n) = (k, i)) ->
      (forall m n, side nt ta m n -> meets (aget a k) i (aget ta m) n -> (m, n) = (l, j)) ->
      qentry adj k i = - (3 * l + j).
Proof.
  intros inival siz max nt ntmax nq gr ta a MT MQ NH Hi3 Hi4 Hs Hg.
  destruct (hash_2d_fits inival nt ntmax ta MT Hi3) as (adja & Ea & La & Fa).
  destruct (hash_quads_triangles inival siz max nt ntmax nq gr ta a MT MQ NH Hi3 Hi4 Hs Hg) as (adja' & adj & Ea' & Ej & _ & F).
  assert (adja' = adja) by congruence. subst adja'.
  exists adja, adj. split; [exact Ea|]. split; [exact Ej|].
  intros k i l j S1 S2 C UQ UT.
  assert (Fe : entry adja l j = 0).
  { destruct (fit_sym _ _ _ Fa l j S2) as [Z0|(m & n & S3 & N & _ & _ & C2)]; [exact Z0|].
    exfalso. apply N. apply UT; [exact S3 | exact (Permutation_trans C C2)]. }
  pose proof (fb_tria _ _ _ _ _ _ F k i l j S1 S2 C Fe) as Nz.
  destruct (fb_sym _ _ _ _ _ _ F k i S1) as [Z0|[(m & n & S3 & N & _ & _ & C2)|(m & n & S3 & _ & E & C2)]].
  - contradiction.
  - exfalso. apply N. apply UQ; assumption.
  - pose proof (UT m n S3 C2) as Q. apply pair_equal_spec in Q. destruct Q as [-> ->]. exact E.
Qed.
Print Assumptions interface_found.

(** Two quadrilaterals and a triangle on the side 5-4 of the first. *)
Definition one_tria : arr tri :=
  aof (mkTri (fun _ => 0) (fun _ => 0) (fun _ => 0) 0)
      [mkTri (fun i => if i =? 0 then 4 else if i =? 1 then 5 else 7) (fun _ => 0) (fun _ => 0) 0].

Lemma one_tria_mesh : mesh2 1 1 one_tria.
Proof.
  split; [lia|]. split; [reflexivity|]. intros k Hk _ i Hi. assert (k = 1) as -> by lia.
  assert (C : i = 0 \/ i = 1 \/ i = 2) by lia. destruct C as [->|[->| ->]]; vm_compute; reflexivity.
Qed.

(** The theorem applies; the table of the edges grows; the entry is minus the
    edge 2 of the triangle 1. *)
Example quads_and_tria :
  exists adja adj, hash2 (2 ^ 31 - 1) 1 1 one_tria = Ret adja /\
    hashQuad (2 ^ 31 - 1) 0 1 1 2 (fun _ => 1) one_tria adja two_quads = Ret adj /\
    fits_both 1 one_tria adja 2 two_quads adj /\
    map (fun n => aget adj n) [1; 2; 3; 4; 5; 6; 7; 8] = [0; 0; 9; -5; 0; 6; 0; 0].
Proof.
  destruct two_quads_mesh as [M F].
  destruct (hash_quads_triangles (2 ^ 31 - 1) 0 1 1 1 2 (fun _ => 1) one_tria two_quads one_tria_mesh M F
     ltac:(lia) ltac:(lia) ltac:(lia) ltac:(intros; lia)) as (adja & adj & E1 & E2 & _ & H).
  exists adja, adj. split; [exact E1|]. split; [exact E2|]. split; [exact H|].
  assert (T : (match hash2 (2 ^ 31 - 1) 1 1 one_tria with
               | Ret x => match hashQuad (2 ^ 31 - 1) 0 1 1 2 (fun _ => 1) one_tria x two_quads with
                          | Ret y => Some (map (fun n => aget y n) [1; 2; 3; 4; 5; 6; 7; 8]) | Stuck => None end
               | Stuck => None end)
            = Some [0; 0; 9; -5; 0; 6; 0; 0]) by (vm_compute; reflexivity).
  rewrite E1, E2 in T. congruence.
Qed.
