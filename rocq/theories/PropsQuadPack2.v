(** Property C76: the edges returned for the quadrilaterals of Mmg2d. *)
From Coq Require Import ZArith List Lia Bool Permutation.
From Verif Require Import CBase SurfModel Tria2 PropsTria2 Quad2 QuadTria2 PropsQuad2 PropsQuadTria2 QuadPack2.
Import ListNotations.
Open Scope Z_scope.

(** ** Specification *)

(** The side [i] of [k] makes an edge: a side without neighbour, one between two
    references (from the larger), a corner or required one, with open
    boundaries a marked one; and, by an error of the code, the side on the edge
    0 of the triangle 1 (entry -3). *)
Definition qwanted (opn : bool) (nq : Z) (a : arr quad) (adj rf tg : arr Z) (k i : Z) : Prop :=
  qentry adj k i = 0 \/ qentry adj k i = -3 \/
  exists l j, qside nq a l j /\ qentry adj k i = 4 * l + j /\
    (aget rf l < aget rf k \/
     (aget rf k = aget rf l /\ (b_crn (aget tg (4 * (k - 1) + 1 + i)) = true \/ b_req (aget tg (4 * (k - 1) + 1 + i)) = true)) \/
     (opn = true /\ (b_ref (aget tg (4 * (k - 1) + 1 + i)) = true \/ b_bdy (aget tg (4 * (k - 1) + 1 + i)) = true))).

(** The edge [e] is the side [i] of [k]. *)
Definition qcarries (a : arr quad) (tg ed : arr Z) (k i : Z) (e : edge) : Prop :=
  [e_a e; e_b e] = qends (aget a k) i /\ e_ref e = aget ed (4 * (k - 1) + 1 + i) /\ e_tag e = aget tg (4 * (k - 1) + 1 + i).

(** Arrays large enough for [nq] quadrilaterals. *)
Definition qroom (nq : Z) (rf tg ed : arr Z) : Prop := nq < alen rf /\ 4 * nq < alen tg /\ 4 * nq < alen ed.

(** ** C76 *)

Lemma stored_inner opn l r r1 t : 1 <= l -> (stored opn l r r1 t = true <->
  r1 < r \/ (r = r1 /\ (b_crn t = true \/ b_req t = true)) \/ (opn = true /\ (b_ref t = true \/ b_bdy t = true))).
Proof.
  intros Hl. unfold stored. rewrite t_sin_bits. unfold b_ref, b_bdy. change G_REF with (2 ^ 0). change G_BDY with (2 ^ 4).
  rewrite !tst_bit by lia. destruct (Z.eqb_spec l 0); [lia|]. cbn [orb].
  rewrite !orb_true_iff, !andb_true_iff, !orb_true_iff, Z.ltb_lt, Z.eqb_eq. tauto.
Qed.

(** The edges made for the quadrilaterals are the wanted sides, one from each,
    after the [na] edges of the triangles. *)
Theorem quad_edges_made : forall opn nt ta adja nq a adj rf tg ed na,
  meshq nq a -> fits_both nt ta adja nq a adj -> no_holes nq a -> alen adj = 4 * nq + 5 -> qroom nq rf tg ed ->
  exists l src, pack_quads opn nq a adj rf tg ed na = Ret (na + Z.of_nat (length l), l) /\
    Forall2 (fun p e => qcarries a tg ed (fst p) (snd p) e) src l /\ NoDup src /\
    forall k i, In (k, i) src <-> qside nq a k i /\ qwanted opn nq a adj rf tg k i.
Proof.
  intros opn nt ta adja nq a adj rf tg ed na (Q1 & Q2 & Q3) F NH La (R1 & R2 & R3).
  assert (Hq : forall c, 1 <= c <= 4 * nq -> aget adj c < 4 * (nq + 1)).
  { intros c Hc. destruct (Quad2Hash.fel_range nq c Hc) as [A1 A2]. pose proof (qfel_dec c) as D.
    assert (S : qside nq a (Quad2Hash.fel c) (Quad2Hash.floc c)) by (split; [exact A1 | split; [apply NH; exact A1 | exact A2]]).
    pose proof (fb_sym _ _ _ _ _ _ F _ _ S) as C. unfold qentry at 1 2 4 in C. rewrite D in C.
    destruct C as [C|[(l & j & (L1 & _ & L3) & _ & C & _)|(l & j & (L1 & _ & L3) & _ & C & _)]]; lia. }
  pose proof (pack_quads_ok opn nq a adj rf tg ed ltac:(lia) ltac:(lia) R1 R2 R3 Hq na) as E.
  set (src := filter (keep opn a adj rf tg) (before (nq + 1) 0)) in *.
  exists (map (edge_of a tg ed) src), src. split; [rewrite map_length; exact E|].
  split; [|split].
  - assert (A : forall p, In p src -> qcarries a tg ed (fst p) (snd p) (edge_of a tg ed p)).
    { intros [k i] H. apply filter_In in H. destruct H as [H _]. apply in_before in H. cbn [fst snd].
      split; [|split; reflexivity]. rewrite qends_ab by lia. reflexivity. }
    clear E. induction src as [|p l IH]; cbn [map]; constructor; [apply A; left; reflexivity | apply IH; intros q Hq'; apply A; right; exact Hq'].
  - apply NoDup_filter. apply before_nodup. lia.
  - intros k i. unfold src. rewrite filter_In, in_before.
    assert (B : qside nq a k i -> (keep opn a adj rf tg (k, i) = true <-> qwanted opn nq a adj rf tg k i)).
    { intros S. pose proof S as (S1 & S2 & S3). pose proof (Q3 k S1 S2 0 ltac:(lia)) as P.
      unfold keep, qwanted, qcell. fold (qentry adj k i). rewrite (proj2 (Z.ltb_lt _ _) P). cbn [andb].
      destruct (fb_sym _ _ _ _ _ _ F k i S) as [Z0|[(l & j & L & _ & E1 & _)|(l & j & (L1 & L2 & L3) & _ & E1 & _)]].
      - rewrite Z0. cbn. tauto.
      - pose proof L as (L1 & _ & L3). rewrite E1.
        assert (Z.quot (4 * l + j) 4 = l) as ->.
        { rewrite Z.quot_div_nonneg by lia. rewrite (Z.mul_comm 4 l), Z.add_comm, Z.div_add by lia. rewrite Z.div_small by lia. lia. }
        destruct (Z.ltb_spec l 0); [lia|]. cbn [negb andb]. rewrite stored_inner by lia. split.
        + intros H1. right. right. exists l, j. auto.
        + intros [H1|[H1|(l' & j' & (M1 & _ & M3) & M4 & H1)]]; [lia|lia|].
          assert (l' = l) as -> by lia. exact H1.
      - rewrite E1. destruct (Z.eq_dec (3 * l + j) 3) as [E3|N3].
        + rewrite E3. cbn. split; [intros _; right; left; reflexivity | reflexivity].
        + assert (Z.quot (- (3 * l + j)) 4 < 0) as X.
          { rewrite Z.quot_opp_l by lia. rewrite Z.quot_div_nonneg by lia.
            pose proof (Z.div_le_lower_bound (3 * l + j) 4 1). lia. }
          rewrite (proj2 (Z.ltb_lt _ _) X). cbn [negb andb]. split; [discriminate|].
          intros [H1|[H1|(l' & j' & (M1 & _ & M3) & M4 & H1)]]; lia. }
    split.
    + intros [H1 H2]. assert (S : qside nq a k i) by (split; [lia | split; [apply NH; lia | lia]]).
      split; [exact S | apply (B S); exact H2].
    + intros [S H]. split; [destruct S as (? & ? & ?); left; lia | apply (B S); exact H].
Qed.
Print Assumptions quad_edges_made.

(** A side on a triangle makes no second edge, unless it is the edge 0 of the
    triangle 1. *)
Theorem interface_not_doubled : forall opn nt ta adja nq a adj rf tg ed na k i l j,
  meshq nq a -> fits_both nt ta adja nq a adj -> no_holes nq a -> alen adj = 4 * nq + 5 -> qroom nq rf tg ed ->
  qside nq a k i -> side nt ta l j -> qentry adj k i = - (3 * l + j) -> (l, j) <> (1, 0) ->
  exists es src, pack_quads opn nq a adj rf tg ed na = Ret (na + Z.of_nat (length es), es) /\
    Forall2 (fun p e => qcarries a tg ed (fst p) (snd p) e) src es /\ ~ In (k, i) src.
Proof.
  intros opn nt ta adja nq a adj rf tg ed na k i l j M F NH La R S (L1 & _ & L3) E N.
  destruct (quad_edges_made opn nt ta adja nq a adj rf tg ed na M F NH La R) as (es & src & E1 & E2 & _ & E4).
  exists es, src. split; [exact E1|]. split; [exact E2|]. intros H. apply E4 in H. destruct H as [_ [H|[H|(m & n & (M1 & _ & M3) & H & _)]]].
  - lia.
  - apply N. rewrite pair_equal_spec. lia.
  - lia.
Qed.
Print Assumptions interface_not_doubled.

Definition one_tria0 : arr tri :=
  aof (mkTri (fun _ => 0) (fun _ => 0) (fun _ => 0) 0)
      [mkTri (fun i => if i =? 0 then 7 else if i =? 1 then 5 else 4) (fun _ => 0) (fun _ => 0) 0].

Definition nothing : arr Z := acalloc 13 0.

(** In the mesh of two quadrilaterals and a triangle, the five sides that are
    neither shared nor on the triangle are made edges when the triangle has its
    edge 2 there. *)
Example five_edges :
  match hash2 (2 ^ 31 - 1) 1 1 one_tria with
  | Ret adja => match hashQuad (2 ^ 31 - 1) 0 1 1 2 (fun _ => 1) one_tria adja two_quads with
    | Ret adj => match pack_quads false 2 two_quads adj nothing nothing nothing 3 with
      | Ret (n, l) => (n, map (fun e => (e_a e, e_b e)) l) | Stuck => (0, []) end
    | Stuck => (0, []) end
  | Stuck => (0, []) end
  = (8, [(1, 2); (1, 4); (2, 3); (3, 6); (6, 5)]).
Proof. vm_compute. reflexivity. Qed.

(** When it is the edge 0 of the triangle 1 the edge is returned twice, once from
    the triangle and once from the quadrilateral. *)
Theorem quad_edges_once_refuted :
  exists nt ta nq a adja adj b n1 ed n2 es,
    mesh2 nt nt ta /\ meshq nq a /\ no_holes nq a /\
    hash2 (2 ^ 31 - 1) nt nt ta = Ret adja /\
    hashQuad (2 ^ 31 - 1) 0 1 nt nq (fun _ => 1) ta adja a = Ret adj /\
    fits_both nt ta adja nq a adj /\
    pack_edges false nt adja ta = Ret (b, n1, ed) /\
    pack_quads false nq a adj nothing nothing nothing n1 = Ret (n2, es) /\
    exists m e, 1 <= m <= n1 /\ In e es /\ Permutation [e_a e; e_b e] [e_a (aget ed m); e_b (aget ed m)].
Proof.
  assert (MT : mesh2 1 1 one_tria0).
  { split; [lia|]. split; [reflexivity|]. intros k Hk _ i Hi. assert (k = 1) as -> by lia.
    assert (C : i = 0 \/ i = 1 \/ i = 2) by lia. destruct C as [->|[->| ->]]; vm_compute; reflexivity. }
  destruct two_quads_mesh as [M F].
  destruct (hash_quads_triangles (2 ^ 31 - 1) 0 1 1 1 2 (fun _ => 1) one_tria0 two_quads MT M F
     ltac:(lia) ltac:(lia) ltac:(lia) ltac:(intros; lia)) as (adja & adj & E1 & E2 & _ & H).
  assert (T : (match hash2 (2 ^ 31 - 1) 1 1 one_tria0 with
     | Ret x => match hashQuad (2 ^ 31 - 1) 0 1 1 2 (fun _ => 1) one_tria0 x two_quads with
       | Ret y => match pack_edges false 1 x one_tria0, pack_quads false 2 two_quads y nothing nothing nothing 3 with
         | Ret (_, n1, ed), Ret (n2, es) =>
             (n1 =? 3) && (e_a (aget ed 1) =? 5) && (e_b (aget ed 1) =? 4) &&
             match nth_error es 2 with Some e => (e_a e =? 5) && (e_b e =? 4) | None => false end
         | _, _ => false end
       | Stuck => false end
     | Stuck => false end) = true) by (vm_compute; reflexivity).
  rewrite E1, E2 in T.
  destruct (pack_edges false 1 adja one_tria0) as [[[b n1] ed]|] eqn:E3; [|discriminate].
  destruct (pack_quads false 2 two_quads adj nothing nothing nothing 3) as [[n2 es]|] eqn:E4; [|discriminate].
  destruct (nth_error es 2) as [e|] eqn:E5; [|rewrite andb_false_r in T; discriminate].
  rewrite !andb_true_iff, !Z.eqb_eq in T. destruct T as [[[-> T2] T3] [T4 T5]].
  exists 1, one_tria0, 2, two_quads, adja, adj, b, 3, ed, n2, es.
  split; [exact MT|]. split; [exact M|]. split; [exact F|]. split; [exact E1|]. split; [exact E2|]. split; [exact H|].
  split; [exact E3|]. split; [exact E4|]. exists 1, e. split; [lia|]. split; [apply (nth_error_In _ _ E5)|].
  rewrite T2, T3, T4, T5. apply Permutation_refl.
Qed.
Print Assumptions quad_edges_once_refuted.
