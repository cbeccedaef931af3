(** The swap of two tetrahedra into three: conformity, marks of the boundary, and what happens without memory. *)
From Coq Require Import ZArith List Lia Bool.
From Verif Require Import CBase Tet3Model Tet3Spec Tet3Proofs Tet3Pool Tet3Col Tet3Out Tet3Shell Tet3Tag Rewire Tet3Check Swap3Model Swap3Out Swap3Core Swap3Run Swap3Marks Swap3Main PropsTet3.
Import ListNotations.
Open Scope Z_scope.

(** The table of the boundary tetrahedra: entry 0 has no mark, no entry is used twice. *)
Definition xtables_ok (m : mesh) : Prop :=
  0 <= m_nxt m < alen (m_xt m) /\ (forall k, live m k -> 0 <= qxt (aget (m_tet m) k) <= m_nxt m) /\ xt_own m /\
  (forall g, In g (m_xgaps m) -> 1 <= g) /\ (forall i, loc i -> xref (aget (m_xt m) 0) i = 0 /\ xftag (aget (m_xt m) 0) i = 0).

(** The other tetrahedron on face [j0] of [k], and its vertex opposite to this face. *)
Definition other (m : mesh) (k j0 : Z) : Z := nb m k j0 / 4.
Definition apex (m : mesh) (k j0 : Z) : Z := vtx m (other m k j0) (nb m k j0 mod 4).

(** What the callers make sure of: two tetrahedra of one reference, no edge between the opposite vertices, two boundary
    faces in the first one besides the common face. *)
Definition swappable (m : mesh) (k j0 : Z) : Prop :=
  conforming m /\ oriented m /\ xtables_ok m /\ live m k /\ loc j0 /\ nb m k j0 <> 0 /\
  qxt (aget (m_tet m) k) <> 0 /\ qref (aget (m_tet m) k) = qref (aget (m_tet m) (other m k j0)) /\
  (forall x, live m x -> has m x (vtx m k j0) -> has m x (apex m k j0) -> False) /\
  exists i j, loc i /\ loc j /\ i <> j /\ i <> j0 /\ j <> j0 /\ mark m k i <> (0, 0) /\ mark m k j <> (0, 0).

Lemma fm0 m : xtables_ok m -> forall i, loc i -> fm (aget (m_xt m) 0) i = (0, 0).
Proof. intros (_ & _ & _ & _ & H) i L. destruct (H i L) as [A B]. unfold fm. congruence. Qed.
Lemma xt_of m : xtables_ok m -> xt_ok m.
Proof. intros (H & I & _) k L. specialize (I k L). lia. Qed.

(** All that is known at once. *)
Definition done (m : mesh) (k j0 : Z) (tg rf : Z -> Z) (m' : mesh) : Prop :=
  (conforming m' /\ oriented m' /\ xtables_ok m') /\
  exists e, ~ live m e /\ (forall x, live m' x <-> live m x \/ x = e) /\
  (forall x, live m x -> x <> k -> x <> other m k j0 -> aget (m_tet m') x = aget (m_tet m) x /\
     (qxt (aget (m_tet m) x) <> 0 -> aget (m_xt m') (qxt (aget (m_tet m) x)) = aget (m_xt m) (qxt (aget (m_tet m) x)))) /\
  (forall x, x = k \/ x = other m k j0 \/ x = e -> qref (aget (m_tet m') x) = qref (aget (m_tet m) k)) /\
  (exists a b c, a <> b /\ a <> c /\ b <> c /\ (forall y, on_face m k j0 y <-> y = a \/ y = b \/ y = c) /\
     (forall y, has m' k y <-> y = vtx m k j0 \/ y = apex m k j0 \/ y = b \/ y = c) /\
     (forall y, has m' (other m k j0) y <-> y = vtx m k j0 \/ y = apex m k j0 \/ y = a \/ y = c) /\
     (forall y, has m' e y <-> y = vtx m k j0 \/ y = apex m k j0 \/ y = a \/ y = b)) /\
  (forall x i, live m' x -> loc i ->
     (exists y j, live m y /\ loc j /\ (forall z, on_face m' x i z <-> on_face m y j z) /\ mark m' x i = mark m y j /\ (y = k \/ y = other m k j0 \/ y = x)) \/
     (on_face m' x i (vtx m k j0) /\ on_face m' x i (apex m k j0) /\ mark m' x i = (0, 0))) /\
  (forall x g, (x = k \/ x = other m k j0 \/ x = e) -> 0 <= g <= 5 -> qxt (aget (m_tet m') x) <> 0 ->
     (ends m' x g (vtx m k j0) (apex m k j0) /\ etag m' x g = (0, 0)) \/
     (exists h, 0 <= h <= 5 /\ (forall a b, ends m' x g a b <-> ends m (other m k j0) h a b) /\ etag m' x g = (tg h, rf h)) \/
     (exists h, 0 <= h <= 5 /\ (exists b, ends m k h (vtx m k j0) b) /\ (forall a b, ends m' x g a b <-> ends m k h a b) /\ etag m' x g = etag m k h)).

Lemma has_even m k t0 t1 t2 t3 y : even4 t0 t1 t2 t3 -> (has m k y <-> y = vtx m k t0 \/ y = vtx m k t1 \/ y = vtx m k t2 \/ y = vtx m k t3).
Proof.
  intros H. split.
  - intros (a & La & <-). destruct (even_all _ _ _ _ a H La) as [->|[->|[->| ->]]]; auto.
  - destruct H as ((A0 & A1 & A2 & A3) & _). intros [->|[->|[->| ->]]]; [exists t0|exists t1|exists t2|exists t3]; auto.
Qed.
Lemma face_even m k t0 t1 t2 t3 y : even4 t0 t1 t2 t3 -> (on_face m k t0 y <-> y = vtx m k t1 \/ y = vtx m k t2 \/ y = vtx m k t3).
Proof.
  intros H. split.
  - intros (a & La & N & <-). destruct (even_all _ _ _ _ a H La) as [->|[->|[->| ->]]]; auto. contradiction.
  - destruct H as ((A0 & A1 & A2 & A3) & (N1 & N2 & N3 & _) & _). intros [->|[->| ->]]; [exists t1|exists t2|exists t3]; auto.
Qed.

Lemma swap_all m k j0 tg rf : swappable m k j0 -> exists r m', swap m k j0 tg rf = Ret (r, m') /\
  ((r = -1 /\ (m_nil m = 0 \/ alen (m_xt m) <= m_nxt m + 2)) \/ (r = 1 /\ done m k j0 tg rf m')).
Proof.
  intros (C & O & X & Lk & Lj & NZ & XK & RF & NE0 & TWO). pose proof (fm0 m X) as X0. pose proof (xt_of m X) as XT.
  destruct X as (XN & X1 & XO & XG & X0').
  destruct (conf_ok m k j0 C O Lk Lj NZ) as (c1 & EC & Hc1 & Q0 & R0 & E1 & E3 & E2).
  assert (NE : forall x, live m x -> has m x (vtx m k (tau (3 * j0) 0)) -> has m x (vtx m (nb m k j0 / 4) (tau c1 0)) -> False).
  { rewrite Q0, R0. exact NE0. }
  unfold swap. rewrite EC. cbn [bind].
  destruct (newElt_re_ok (ma m k j0) (ma_tables m k j0 C Lk Lj NZ c1 NE)) as (iel & mb & EB & SL & H).
  destruct (Z.eq_dec iel 0) as [E0|NI].
  { subst iel. exists (-1), mb. split; [apply (early m k j0 C Lk Lj NZ c1 NE XK RF); exact EB|]. left. split; [reflexivity|]. left.
    destruct (Z.eq_dec (m_nil m) 0) as [|N]; [assumption|exfalso]. unfold newElt_re in EB.
    destruct (newElt_ok (ma m k j0) (ma_tables m k j0 C Lk Lj NZ c1 NE) N) as (m1 & E & _). rewrite E in EB. cbn [bind] in EB. change (m_nil (ma m k j0)) with (m_nil m) in EB.
    rewrite (proj2 (Z.eqb_neq _ _) N) in EB. injection EB as E' _. contradiction. }
  assert (TB : tables_but mb iel) by (destruct H; [contradiction|assumption]). clear H.
  destruct (final m k j0 C Lk Lj NZ c1 Hc1 Q0 NE XK RF XT iel mb EB SL TB XN X1 XO XG X0 tg rf TWO) as (r & m' & ER & BX & [[-> HL]|[-> SH]]).
  { exists (-1), m'. split; [exact ER|]. left. auto. }
  exists 1, m'. split; [exact ER|]. right. split; [reflexivity|].
  assert (Ht : even4 (tau (3 * j0) 0) (tau (3 * j0) 1) (tau (3 * j0) 2) (tau (3 * j0) 3)) by (apply tau_even; clear - Lj; apply loc_le in Lj; lia).
  destruct (fin_vk m k j0 C Lk Lj NZ c1 NE iel mb SL TB m' BX) as (k_0 & k_1 & k_2 & k_3).
  destruct (fin_vk1 m k j0 C Lk Lj NZ c1 NE iel mb SL TB m' BX) as (l_0 & l_1 & l_2 & l_3).
  destruct (fin_viel m k j0 C Lk Lj NZ c1 NE iel mb SL TB m' BX) as (i_0 & i_1 & i_2 & i_3).
  rewrite R0 in k_1, l_2, i_3. rewrite Q0 in k_0 at 2. rewrite Q0 in l_0 at 2. rewrite Q0 in i_0 at 2. fold (other m k j0) in *. fold (apex m k j0) in k_1, l_2, i_3.
  split.
  - destruct (fin_conforming m k j0 C O Lk Lj NZ c1 Hc1 Q0 R0 E1 E3 E2 NE iel mb SL TB m' BX) as [C' O']. split; [exact C'|]. split; [exact O'|].
    destruct (fin_own m k j0 C Lk Lj NZ c1 Hc1 NE XK iel mb SL TB XN X1 XO tg rf m' BX SH) as (F1 & F2 & F3).
    split; [exact F3|]. split; [exact F2|]. split; [exact F1|].
    destruct SH as (q' & n' & X' & S & Hn & _ & _ & _ & _ & Hx & _). destruct S as (_ & _ & N' & _ & _ & XX & GG). split; [exact GG|].
    intros i Li. rewrite XX by lia. rewrite Hx; [apply X0', Li|lia| |right; reflexivity]. intros E. apply XK. symmetry. exact E.
  - exists iel. split; [eapply iel_dead; eassumption|].
    split; [intros x; apply (fin_live m k j0 C Lk Lj NZ c1 Hc1 NE iel mb SL TB m' BX x)|].
    split; [intros x; apply (fin_other m k j0 C Lk Lj NZ c1 NE XK iel mb SL TB X1 XO XG X0 tg rf m' BX SH x)|].
    split; [destruct (fin_refs m k j0 C Lk Lj NZ c1 iel mb SL TB m' BX) as (G1 & G2 & G3); intros x [->|[->| ->]]; assumption|].
    split.
    { exists (vtx m k (tau (3 * j0) 1)), (vtx m k (tau (3 * j0) 2)), (vtx m k (tau (3 * j0) 3)).
      destruct C as (_ & V & _). destruct (V k Lk) as [_ J]. pose proof Ht as ((A0 & A1 & A2 & A3) & (_ & _ & _ & N1 & N2 & N3) & _).
      split; [intros E; apply N1, (J _ _ A1 A2 E)|]. split; [intros E; apply N2, (J _ _ A1 A3 E)|]. split; [intros E; apply N3, (J _ _ A2 A3 E)|].
      split; [intros y; rewrite <- Q0 at 1; apply face_even, Ht|].
      split; [intros y; rewrite (has_even m' k _ _ _ _ y Ht), k_0, k_1, k_2, k_3; reflexivity|].
      split; [intros y; rewrite (has_even m' _ _ _ _ _ y Ht), l_0, l_1, l_2, l_3; tauto|].
      intros y. rewrite (has_even m' _ _ _ _ _ y Ht), i_0, i_1, i_2, i_3. tauto. }
    split.
    + intros x i Lx Hi. pose proof (fin_faces m k j0 C Lk Lj NZ c1 Hc1 Q0 R0 E1 E3 E2 NE XK iel mb SL TB X1 XO XG X0 tg rf m' BX SH x i Lx Hi) as H. rewrite R0 in H. exact H.
    + intros x g Hx Hg NX. pose proof (fin_edges m k j0 C Lk Lj NZ c1 Hc1 Q0 E1 E3 E2 NE XK iel mb SL TB XN X1 XG X0 tg rf m' BX SH x g Hx Hg NX) as H. rewrite R0 in H. exact H.
Qed.

(** ** The theorems *)

(** The swap runs without a bad access; it fails only when one of the two tables is full. *)
Theorem swap_runs m k j0 tg rf : swappable m k j0 ->
  exists r m', swap m k j0 tg rf = Ret (r, m') /\ (r = 1 \/ r = -1) /\ (m_nil m <> 0 -> m_nxt m + 2 < alen (m_xt m) -> r = 1).
Proof.
  intros S. destruct (swap_all m k j0 tg rf S) as (r & m' & E & [[-> H]|[-> _]]); eexists _, m'; (split; [exact E|]); (split; [auto|]); intros A B; [|reflexivity].
  destruct H; [contradiction|lia].
Qed.

Lemma swap_done m k j0 tg rf m' : swappable m k j0 -> swap m k j0 tg rf = Ret (1, m') -> done m k j0 tg rf m'.
Proof.
  intros S E. destruct (swap_all m k j0 tg rf S) as (r & m2 & E2 & H). rewrite E in E2. injection E2 as <- <-. destruct H as [[H _]|[_ H]]; [discriminate|exact H].
Qed.

(** Two tetrahedra become the three tetrahedra around the new edge; nothing else changes. *)
Theorem swap_conforming m k j0 tg rf m' : swappable m k j0 -> swap m k j0 tg rf = Ret (1, m') ->
  conforming m' /\ oriented m' /\ xtables_ok m' /\
  exists e, ~ live m e /\ (forall x, live m' x <-> live m x \/ x = e) /\
  (forall x, live m x -> x <> k -> x <> other m k j0 -> aget (m_tet m') x = aget (m_tet m) x /\
     (qxt (aget (m_tet m) x) <> 0 -> aget (m_xt m') (qxt (aget (m_tet m) x)) = aget (m_xt m) (qxt (aget (m_tet m) x)))) /\
  (forall x, x = k \/ x = other m k j0 \/ x = e -> qref (aget (m_tet m') x) = qref (aget (m_tet m) k)) /\
  exists a b c, a <> b /\ a <> c /\ b <> c /\ (forall y, on_face m k j0 y <-> y = a \/ y = b \/ y = c) /\
     (forall y, has m' k y <-> y = vtx m k j0 \/ y = apex m k j0 \/ y = b \/ y = c) /\
     (forall y, has m' (other m k j0) y <-> y = vtx m k j0 \/ y = apex m k j0 \/ y = a \/ y = c) /\
     (forall y, has m' e y <-> y = vtx m k j0 \/ y = apex m k j0 \/ y = a \/ y = b).
Proof.
  intros S E. destruct (swap_done _ _ _ _ _ _ S E) as ((C & O & X) & e & N & L & D & R & (a & b & c & H) & _).
  split; [exact C|]. split; [exact O|]. split; [exact X|]. exists e. split; [exact N|]. split; [exact L|]. split; [exact D|]. split; [exact R|]. exists a, b, c. exact H.
Qed.

(** Each face keeps its reference and tag; the three new faces have none. *)
Theorem swap_faces m k j0 tg rf m' : swappable m k j0 -> swap m k j0 tg rf = Ret (1, m') ->
  forall x i, live m' x -> loc i ->
  (exists y j, live m y /\ loc j /\ (forall z, on_face m' x i z <-> on_face m y j z) /\ mark m' x i = mark m y j /\ (y = k \/ y = other m k j0 \/ y = x)) \/
  (on_face m' x i (vtx m k j0) /\ on_face m' x i (apex m k j0) /\ mark m' x i = (0, 0)).
Proof. intros S E. destruct (swap_done _ _ _ _ _ _ S E) as (_ & e & _ & _ & _ & _ & _ & H & _). exact H. Qed.

(** Each edge of the three tetrahedra keeps its tag: that found around the edge for the edges of the second tetrahedron,
    that of the first one for its edges through the opposite vertex; the new edge has none. *)
Theorem swap_edges m k j0 tg rf m' : swappable m k j0 -> swap m k j0 tg rf = Ret (1, m') ->
  forall x g, live m' x -> (x = k \/ x = other m k j0 \/ ~ live m x) -> 0 <= g <= 5 -> qxt (aget (m_tet m') x) <> 0 ->
     (ends m' x g (vtx m k j0) (apex m k j0) /\ etag m' x g = (0, 0)) \/
     (exists h, 0 <= h <= 5 /\ (forall a b, ends m' x g a b <-> ends m (other m k j0) h a b) /\ etag m' x g = (tg h, rf h)) \/
     (exists h, 0 <= h <= 5 /\ (exists b, ends m k h (vtx m k j0) b) /\ (forall a b, ends m' x g a b <-> ends m k h a b) /\ etag m' x g = etag m k h).
Proof.
  intros S E x g Lx Hx. destruct (swap_done _ _ _ _ _ _ S E) as (_ & e & _ & L & _ & _ & _ & _ & H). apply H.
  destruct Hx as [Hx|[Hx|Hx]]; [auto|auto|]. apply L in Lx. destruct Lx; [contradiction|auto].
Qed.

(** ** Concrete cases *)

Definition rotb (l l' : list Z) : bool :=
  match l, l' with
  | [a; b; c], [x; y; z] => ((x =? a) && (y =? b) && (z =? c)) || ((x =? b) && (y =? c) && (z =? a)) || ((x =? c) && (y =? a) && (z =? b))
  | _, _ => false
  end.
Lemma rotb_ok l l' : rotb l l' = true -> rot l l'.
Proof.
  destruct l as [|a [|b [|c [|]]]]; try discriminate. destruct l' as [|x [|y [|z [|]]]]; try discriminate. cbn.
  rewrite !orb_true_iff, !andb_true_iff, !Z.eqb_eq. intros [[[[-> ->] ->]|[[-> ->] ->]]|[[-> ->] ->]]; auto.
Qed.
Definition orb3 (m : mesh) : bool := all_k m (fun k => all_i (fun i => (nb m k i =? 0) || rotb (rev (fpts m k i)) (fpts m (nb m k i / 4) (nb m k i mod 4)))).
Lemma orb3_ok m : orb3 m = true -> oriented m.
Proof.
  intros H k i L Li NZ. pose proof (all_i_ok _ (all_k_ok m _ H k L) i Li) as K. cbv beta in K. rewrite (proj2 (Z.eqb_neq _ _) NZ) in K. apply rotb_ok, K.
Qed.
Definition xtb (m : mesh) : bool :=
  (0 <=? m_nxt m) && (m_nxt m <? alen (m_xt m)) && all_k m (fun k => (0 <=? qxt (aget (m_tet m) k)) && (qxt (aget (m_tet m) k) <=? m_nxt m)) &&
  all_k m (fun k => all_k m (fun l => negb (qxt (aget (m_tet m) k) =? qxt (aget (m_tet m) l)) || (qxt (aget (m_tet m) k) =? 0) || (k =? l))) &&
  forallb (fun g => 1 <=? g) (m_xgaps m) && all_i (fun i => (xref (aget (m_xt m) 0) i =? 0) && (xftag (aget (m_xt m) 0) i =? 0)).
Lemma xtb_ok m : xtb m = true -> xtables_ok m.
Proof.
  unfold xtb. rewrite !andb_true_iff, Z.leb_le, Z.ltb_lt, forallb_forall. intros [[[[[H1 H2] H3] H4] H5] H6].
  split; [auto|]. split; [|split; [|split]].
  - intros k L. pose proof (all_k_ok m _ H3 k L) as K. cbv beta in K. rewrite andb_true_iff, !Z.leb_le in K. exact K.
  - intros k l Lk Ll E N. pose proof (all_k_ok m _ (all_k_ok m _ H4 k Lk) l Ll) as K. cbv beta in K. rewrite E, Z.eqb_refl in K. rewrite E in N. rewrite (proj2 (Z.eqb_neq _ 0) N) in K. cbn in K. apply Z.eqb_eq, K.
  - intros g I. apply Z.leb_le, H5, I.
  - intros i L. pose proof (all_i_ok _ H6 i L) as K. cbv beta in K. rewrite andb_true_iff, !Z.eqb_eq in K. exact K.
Qed.
Definition noedgeb (m : mesh) (p q : Z) : bool := all_k m (fun x => negb (mem p (vs m x) && mem q (vs m x))).
Lemma noedgeb_ok m p q : noedgeb m p q = true -> forall x, live m x -> has m x p -> has m x q -> False.
Proof.
  intros H x L P Q. pose proof (all_k_ok m _ H x L) as K. cbv beta in K. apply vs_ok, mem_ok in P, Q. rewrite P, Q in K. discriminate.
Qed.
Definition marked (m : mesh) (k i : Z) : bool := negb (fst (mark m k i) =? 0) || negb (snd (mark m k i) =? 0).
Lemma marked_ok m k i : marked m k i = true -> mark m k i <> (0, 0).
Proof. unfold marked. intros H E. rewrite E in H. discriminate. Qed.
Definition swapb (m : mesh) (k j0 i j : Z) : bool :=
  confb m && orb3 m && xtb m && liveb m k && mem j0 L4 && negb (nb m k j0 =? 0) && negb (qxt (aget (m_tet m) k) =? 0) &&
  (qref (aget (m_tet m) k) =? qref (aget (m_tet m) (other m k j0))) && noedgeb m (vtx m k j0) (apex m k j0) &&
  mem i L4 && mem j L4 && negb (i =? j) && negb (i =? j0) && negb (j =? j0) && marked m k i && marked m k j.
Lemma swapb_ok m k j0 i j : swapb m k j0 i j = true -> swappable m k j0.
Proof.
  unfold swapb. rewrite !andb_true_iff, !negb_true_iff, !Z.eqb_neq, Z.eqb_eq, !mem_ok, <- !L4_ok, liveb_ok.
  intros [[[[[[[[[[[[[[[H1 H2] H3] H4] H5] H6] H7] H8] H9] A1] A2] A3] A4] A5] A6] A7].
  split; [apply confb_ok, H1|]. split; [apply orb3_ok, H2|]. split; [apply xtb_ok, H3|]. split; [exact H4|]. split; [exact H5|]. split; [exact H6|]. split; [exact H7|].
  split; [exact H8|]. split; [apply noedgeb_ok, H9|]. exists i, j. repeat (split; [assumption|]). split; apply marked_ok; assumption.
Qed.

(** Tetrahedron 1 has two boundary faces, a neighbour 4 and a neighbour 2, which has three other neighbours; the face between 2
    and 3 separates two subdomains and 3 is the side from which it is oriented. *)
Definition face_x (fs : list Z) (ori : Z) : xtet := mkXt (fun i => if mem i fs then 10 + i else 0) (fun i => if mem i fs then MG_BDY else 0) (fun e => e + 1) (fun e => 20 + e) ori.
Definition pair0 (nemax : Z) : mesh :=
  let m := build nemax [([1;2;3;4], 0, 1); ([5;2;4;3], 0, 2); ([6;4;3;5], 0, 3); ([7;3;4;1], 0, 0); ([8;3;2;5], 0, 0); ([9;2;4;5], 0, 0)]
    [8; 16; 0; 0; 4; 12; 20; 24; 9; 0; 0; 0; 5; 0; 0; 0; 10; 0; 0; 0; 11; 0; 0; 0] [face_x [2; 3] 15; face_x [1] 13; face_x [0] 15] in
  let t := aget (m_tet m) 3 in pt m 3 (mkTet (qv t) 8 (qtag t) (qxt t) (qflag t)).
Definition pair : mesh := p_xgaps (pair0 9) [2].
Example pair_swappable : swappable pair 1 0.
Proof. apply (swapb_ok _ _ _ 2 3). vm_compute. reflexivity. Qed.
Example pair_swap : runs (swap pair 1 0 (fun e => 30 + e) (fun e => 40 + e)) (fun r => match r with (a, m2) => (a =? 1) && liveb m2 7 &&
  sameb (vs m2 1) [1; 5; 3; 4] && sameb (vs m2 2) [1; 2; 5; 4] && sameb (vs m2 7) [1; 2; 3; 5] &&
  (nb m2 1 0 =? 12) && (nb m2 1 1 =? 16) && (nb m2 3 0 =? 4) && (nb m2 5 0 =? 28) && (nb m2 6 0 =? 8) &&
  (xref (aget (m_xt m2) 1) 0 =? 11) && (xref (aget (m_xt m2) 2) 2 =? 12) && (qxt (aget (m_tet m2) 7) =? 4) && (xref (aget (m_xt m2) 4) 3 =? 13) && confb m2 && orb3 m2 && xtb m2 end) = true.
Proof. vm_compute. reflexivity. Qed.

(** ** What the swap does not keep *)

(** The face between tetrahedra 2 and 3 is now a face of tetrahedron 1, oriented from both sides: the bit is never cleared. *)
Theorem swap_orientation_refuted : exists m k j0 tg rf m' x i y j, swappable m k j0 /\ swap m k j0 tg rf = Ret (1, m') /\
  live m' x /\ live m y /\ loc i /\ loc j /\ (forall z, on_face m' x i z <-> on_face m y j z) /\ mark m' x i = mark m y j /\ mark m y j <> (0, 0) /\
  (x = k \/ x = other m k j0) /\ (y = k \/ y = other m k j0) /\
  ori_get (aget (m_xt m') (qxt (aget (m_tet m') x))) i <> ori_get (aget (m_xt m) (qxt (aget (m_tet m) y))) j.
Proof.
  destruct (runs_ok (swap pair 1 0 (fun _ => 0) (fun _ => 0)) (fun r => match r with (a, m2) => (a =? 1) && liveb m2 1 && sameb (fpts m2 1 0) (fpts pair 2 1) &&
    (fst (mark m2 1 0) =? 11) && (snd (mark m2 1 0) =? MG_BDY) && ori_get (aget (m_xt m2) (qxt (aget (m_tet m2) 1))) 0 end)) as ((a & m') & R & P); [vm_compute; reflexivity|].
  rewrite !andb_true_iff, !Z.eqb_eq, liveb_ok, sameb_ok in P. destruct P as [[[[[-> P1] P2] P3] P4] P5].
  exists pair, 1, 0, (fun _ => 0), (fun _ => 0), m', 1, 0, 2, 1. split; [exact pair_swappable|]. split; [exact R|]. split; [exact P1|].
  assert (L0 : loc 0) by (unfold loc; auto). assert (L1 : loc 1) by (unfold loc; auto).
  split; [apply liveb_ok; vm_compute; reflexivity|]. split; [exact L0|]. split; [exact L1|]. split; [intros z; rewrite <- !fpts_ok by assumption; apply P2|].
  assert (M : mark pair 2 1 = (11, MG_BDY)) by (vm_compute; reflexivity). rewrite M. split; [destruct (mark m' 1 0); cbn in P3, P4; congruence|].
  split; [discriminate|]. split; [auto|]. split; [right; vm_compute; reflexivity|]. rewrite P5. vm_compute. discriminate.
Qed.

(** Faces of the second tetrahedron that are not oriented stay so when the first one has no oriented face either; one that
    is oriented stays so. *)
Definition reori (m : mesh) (f : Z -> Z) : mesh :=
  p_xts m (mkArr (alen (m_xt m)) (fun k => let x := aget (m_xt m) k in mkXt (xref x) (xftag x) (xtag x) (xedg x) (f k))).
Example orientation_cleared : runs (swap (reori pair (fun _ => 0)) 1 0 (fun _ => 0) (fun _ => 0)) (fun r => match r with (a, m2) => (a =? 1) &&
  all_i (fun i => negb (ori_get (aget (m_xt m2) 1) 0)) && negb (ori_get (aget (m_xt m2) 2) 0) && negb (ori_get (aget (m_xt m2) 4) 0) end) = true.
Proof. vm_compute. reflexivity. Qed.
Example orientation_set : runs (swap (reori pair (fun k => if k =? 1 then 0 else 15)) 1 0 (fun _ => 0) (fun _ => 0)) (fun r => match r with (a, m2) => (a =? 1) &&
  ori_get (aget (m_xt m2) 1) 0 && ori_get (aget (m_xt m2) 2) 0 && ori_get (aget (m_xt m2) 4) 0 end) = true.
Proof. vm_compute. reflexivity. Qed.

(** Without memory for a tetrahedron the second one has already been overwritten. *)
Theorem swap_no_memory_refuted : exists m k j0 tg rf m', swappable m k j0 /\ swap m k j0 tg rf = Ret (-1, m') /\
  live m' k /\ live m' (other m k j0) /\ other m k j0 <> k /\ (forall i, vtx m' (other m k j0) i = vtx m' k i) /\ ~ conforming m'.
Proof.
  assert (S : swappable (pair0 7) 1 0) by (apply (swapb_ok _ _ _ 2 3); vm_compute; reflexivity).
  destruct (runs_ok (swap (pair0 7) 1 0 (fun _ => 0) (fun _ => 0)) (fun r => match r with (a, m2) => (a =? -1) && liveb m2 1 && liveb m2 2 && fsame m2 1 1 2 1 && (nb m2 1 1 =? 16) end)) as ((a & m') & R & P); [vm_compute; reflexivity|].
  rewrite !andb_true_iff, !liveb_ok, !Z.eqb_eq in P. destruct P as [[[[-> P1] P2] P3] P4].
  exists (pair0 7), 1, 0, (fun _ => 0), (fun _ => 0), m'. assert (EO : other (pair0 7) 1 0 = 2) by (vm_compute; reflexivity). rewrite EO.
  split; [exact S|]. split; [exact R|]. split; [exact P1|]. split; [exact P2|]. split; [discriminate|]. split.
  - intros i. cbv [swap swap_conf swap23] in R. injection R as <-. reflexivity.
  - intros (_ & V & A). apply fsame_ok in P3; [|unfold loc; auto|unfold loc; auto].
    assert (E : nb m' 1 1 = 4 * 2 + 1) by (apply nb_same; try assumption; try (unfold loc; auto); discriminate). rewrite P4 in E. discriminate.
Qed.

(** Without memory for a boundary tetrahedron two tetrahedra are left with the same one. *)
Theorem swap_no_boundary_memory_refuted : exists m k j0 tg rf m', swappable m k j0 /\ swap m k j0 tg rf = Ret (-1, m') /\ ~ xt_own m'.
Proof.
  assert (S : swappable (pair0 9) 1 0) by (apply (swapb_ok _ _ _ 2 3); vm_compute; reflexivity).
  destruct (runs_ok (swap (pair0 9) 1 0 (fun _ => 0) (fun _ => 0)) (fun r => match r with (a, m2) => (a =? -1) && liveb m2 1 && liveb m2 7 && (qxt (aget (m_tet m2) 1) =? 1) && (qxt (aget (m_tet m2) 7) =? 1) end)) as ((a & m') & R & P); [vm_compute; reflexivity|].
  rewrite !andb_true_iff, !liveb_ok, !Z.eqb_eq in P. destruct P as [[[[-> P1] P2] P3] P4].
  exists (pair0 9), 1, 0, (fun _ => 0), (fun _ => 0), m'. split; [exact S|]. split; [exact R|]. intros H. assert (E : 1 = 7) by (apply H; try assumption; congruence). discriminate.
Qed.

Print Assumptions swap_runs.
Print Assumptions swap_conforming.
Print Assumptions swap_faces.
Print Assumptions swap_edges.
Print Assumptions swap_orientation_refuted.
Print Assumptions swap_no_memory_refuted.
Print Assumptions swap_no_boundary_memory_refuted.
