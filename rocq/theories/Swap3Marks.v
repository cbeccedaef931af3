(** The marks of the faces and the tags of the edges in the boundary tetrahedra built by the swap. *)
From Coq Require Import ZArith List Lia Bool.
From Verif Require Import CBase Tet3Model Tet3Spec Tet3Proofs Tet3Pool Tet3Out Swap3Model Swap3Out Swap3Run.
Import ListNotations.
Open Scope Z_scope.

(** ** The tables of the permutations *)

Lemma tau_even c : 0 <= c < 12 -> even4 (tau c 0) (tau c 1) (tau c 2) (tau c 3).
Proof.
  intros H. assert (E : c = 0 \/ c = 1 \/ c = 2 \/ c = 3 \/ c = 4 \/ c = 5 \/ c = 6 \/ c = 7 \/ c = 8 \/ c = 9 \/ c = 10 \/ c = 11) by lia. clear H.
  repeat (destruct E as [E|E]); subst c; cbv; intuition (discriminate || auto).
Qed.
Lemma tau_at j i : loc j -> 0 <= i < 3 -> tau (3 * j + i) 0 = j /\ tau (3 * j + i) 1 = nth (Z.to_nat i) (idir j) 0.
Proof.
  intros Lj H. assert (E : i = 0 \/ i = 1 \/ i = 2) by lia. destruct Lj as [->|[->|[->| ->]]], E as [->|[->| ->]]; split; reflexivity.
Qed.

(** Reference and tag of a face, tag and reference of an edge; zero without boundary tetrahedron. *)
Definition mark (m : mesh) (k i : Z) : Z * Z :=
  let x := qxt (aget (m_tet m) k) in if x =? 0 then (0, 0) else (xref (aget (m_xt m) x) i, xftag (aget (m_xt m) x) i).
Definition etag (m : mesh) (k e : Z) : Z * Z :=
  let x := qxt (aget (m_tet m) k) in if x =? 0 then (0, 0) else (xtag (aget (m_xt m) x) e, xedg (aget (m_xt m) x) e).
(** [a] and [b] are the ends of the edge [e] of [k]. *)
Definition ends (m : mesh) (k e a b : Z) : Prop :=
  let (i, j) := iare e in (vtx m k i = a /\ vtx m k j = b) \/ (vtx m k i = b /\ vtx m k j = a).

Lemma xm_from x i y j l : xref (from_face x i y j) l = (if l =? i then xref y j else xref x l) /\ xftag (from_face x i y j) l = (if l =? i then xftag y j else xftag x l).
Proof. unfold from_face. destruct (ori_get y j); split; reflexivity. Qed.
Lemma xm_inner x i l : xref (inner_face x i) l = (if l =? i then 0 else xref x l) /\ xftag (inner_face x i) l = (if l =? i then 0 else xftag x l).
Proof. split; reflexivity. Qed.
Lemma xm_edge x e t r l : xref (w_edge x e t r) l = xref x l /\ xftag (w_edge x e t r) l = xftag x l.
Proof. split; reflexivity. Qed.
Lemma xe_from x i y j l : xtag (from_face x i y j) l = xtag x l /\ xedg (from_face x i y j) l = xedg x l.
Proof. unfold from_face. destruct (ori_get y j); split; reflexivity. Qed.
Lemma xe_inner x i l : xtag (inner_face x i) l = xtag x l /\ xedg (inner_face x i) l = xedg x l.
Proof. split; reflexivity. Qed.
Lemma xe_edge x e t r l : xtag (w_edge x e t r) l = (if l =? e then t else xtag x l) /\ xedg (w_edge x e t r) l = (if l =? e then r else xedg x l).
Proof. split; reflexivity. Qed.

Definition fm (x : xtet) (i : Z) : Z * Z := (xref x i, xftag x i).
Definition em (x : xtet) (e : Z) : Z * Z := (xtag x e, xedg x e).
Lemma fm_from x i y j l : fm (from_face x i y j) l = if l =? i then fm y j else fm x l.
Proof. unfold fm. destruct (xm_from x i y j l) as [-> ->]. destruct (l =? i); reflexivity. Qed.
Lemma fm_inner x i l : fm (inner_face x i) l = if l =? i then (0, 0) else fm x l.
Proof. unfold fm. destruct (xm_inner x i l) as [-> ->]. destruct (l =? i); reflexivity. Qed.
Lemma fm_edge x e t r l : fm (w_edge x e t r) l = fm x l.
Proof. reflexivity. Qed.
Lemma em_from x i y j l : em (from_face x i y j) l = em x l.
Proof. unfold em. destruct (xe_from x i y j l) as [-> ->]. reflexivity. Qed.
Lemma em_inner x i l : em (inner_face x i) l = em x l.
Proof. reflexivity. Qed.
Lemma em_edge x e t r l : em (w_edge x e t r) l = if l =? e then (t, r) else em x l.
Proof. unfold em. destruct (xe_edge x e t r l) as [-> ->]. destruct (l =? e); reflexivity. Qed.

Lemma isx_ok x : isx x = true <-> exists i, loc i /\ fm x i <> (0, 0).
Proof.
  unfold isx. rewrite existsb_exists. unfold fm. split.
  - intros (i & Ii & E). exists i. split; [cbn in Ii; unfold loc; intuition|]. intros H. injection H as H1 H2. rewrite H1, H2 in E. discriminate.
  - intros (i & Li & N). exists i. split; [unfold loc in Li; cbn; intuition|]. destruct (Z.eqb_spec (xref x i) 0) as [E1|]; [|reflexivity]. destruct (Z.eqb_spec (xftag x i) 0) as [E2|]; [|reflexivity].
    exfalso. apply N. congruence.
Qed.
Lemma isx_no x i : isx x = false -> loc i -> fm x i = (0, 0).
Proof.
  intros H L. unfold isx in H. assert (G : forall l, existsb (fun i => negb (xref x i =? 0) || negb (xftag x i =? 0)) l = false -> forall i, In i l -> fm x i = (0, 0)).
  { clear. induction l as [|a l IH]; intros H i; [intros []|]. cbn in H. apply orb_false_iff in H. destruct H as [H1 H2]. intros [<-|I]; [|apply IH; assumption].
    apply orb_false_iff in H1. destruct H1 as [A B]. apply negb_false_iff, Z.eqb_eq in A, B. unfold fm. congruence. }
  apply (G _ H). unfold loc in L. cbn. intuition.
Qed.

(** The edges. *)
Lemma taued_cases c : 0 <= c < 12 -> forall e, 0 <= e <= 5 -> 0 <= taued c e <= 5 /\
  (iare (taued c e) = (tau c (fst (iare e)), tau c (snd (iare e))) \/ iare (taued c e) = (tau c (snd (iare e)), tau c (fst (iare e)))).
Proof.
  intros H e He. assert (E : c = 0 \/ c = 1 \/ c = 2 \/ c = 3 \/ c = 4 \/ c = 5 \/ c = 6 \/ c = 7 \/ c = 8 \/ c = 9 \/ c = 10 \/ c = 11) by lia. clear H.
  assert (F : e = 0 \/ e = 1 \/ e = 2 \/ e = 3 \/ e = 4 \/ e = 5) by lia. clear He.
  repeat (destruct E as [E|E]); subst c; repeat (destruct F as [F|F]); subst e; (split; [cbv; split; discriminate|]); first [left; reflexivity|right; reflexivity].
Qed.
Lemma taued_onto c : 0 <= c < 12 -> forall f, 0 <= f <= 5 -> f = taued c 0 \/ f = taued c 1 \/ f = taued c 2 \/ f = taued c 3 \/ f = taued c 4 \/ f = taued c 5.
Proof.
  intros H e He. assert (E : c = 0 \/ c = 1 \/ c = 2 \/ c = 3 \/ c = 4 \/ c = 5 \/ c = 6 \/ c = 7 \/ c = 8 \/ c = 9 \/ c = 10 \/ c = 11) by lia. clear H.
  assert (F : e = 0 \/ e = 1 \/ e = 2 \/ e = 3 \/ e = 4 \/ e = 5) by lia. clear He.
  repeat (destruct E as [E|E]); subst c; cbv; intuition.
Qed.
Lemma taued_inj c e f : 0 <= c < 12 -> 0 <= e <= 5 -> 0 <= f <= 5 -> e <> f -> (taued c e =? taued c f) = false.
Proof.
  intros H He Hf N. apply Z.eqb_neq. intros X. apply N. clear N.
  assert (E : c = 0 \/ c = 1 \/ c = 2 \/ c = 3 \/ c = 4 \/ c = 5 \/ c = 6 \/ c = 7 \/ c = 8 \/ c = 9 \/ c = 10 \/ c = 11) by lia. clear H.
  assert (F : e = 0 \/ e = 1 \/ e = 2 \/ e = 3 \/ e = 4 \/ e = 5) by lia. clear He.
  assert (G : f = 0 \/ f = 1 \/ f = 2 \/ f = 3 \/ f = 4 \/ f = 5) by lia. clear Hf.
  repeat (destruct E as [E|E]); subst c; repeat (destruct F as [F|F]); subst e; repeat (destruct G as [G|G]); subst f; first [reflexivity|discriminate X].
Qed.
Lemma ends_taued m k c e a b : 0 <= c < 12 -> 0 <= e <= 5 ->
  (ends m k (taued c e) a b <-> (vtx m k (tau c (fst (iare e))) = a /\ vtx m k (tau c (snd (iare e))) = b) \/ (vtx m k (tau c (fst (iare e))) = b /\ vtx m k (tau c (snd (iare e))) = a)).
Proof.
  intros Hc He. unfold ends. destruct (taued_cases c Hc e He) as [_ [E|E]]; rewrite E; tauto.
Qed.

Section Marks.
Variable c0 c1 : Z.
Hypothesis H0 : 0 <= c0 < 12.
Variable tg rf : Z -> Z.
Variable x0 x1 : xtet.
Let a := xt_0 c0 c1 tg rf x0 x1.
Let b := xt_1 c0 c1 tg rf x0 x1.
Let c := xt_2 c0 c1 tg rf x0 x1.

Lemma teq i j : (i = 0 \/ i = 1 \/ i = 2 \/ i = 3) -> (j = 0 \/ j = 1 \/ j = 2 \/ j = 3) -> (tau c0 i =? tau c0 j) = (i =? j).
Proof.
  intros Hi Hj. destruct (tau_even c0 H0) as (_ & (n1 & n2 & n3 & n4 & n5 & n6) & _).
  destruct Hi as [->|[->|[->| ->]]], Hj as [->|[->|[->| ->]]]; first [rewrite !Z.eqb_refl; reflexivity | transitivity false; [apply Z.eqb_neq; congruence|reflexivity]].
Qed.
Lemma fa : fm a (tau c0 0) = fm x1 (tau c1 1) /\ fm a (tau c0 1) = fm x0 (tau c0 1) /\ fm a (tau c0 2) = (0, 0) /\ fm a (tau c0 3) = (0, 0).
Proof. unfold a, xt_0. repeat split; rewrite !fm_inner, fm_from, !fm_edge, !teq by auto; reflexivity. Qed.
Lemma fb : fm b (tau c0 0) = fm x1 (tau c1 3) /\ fm b (tau c0 1) = (0, 0) /\ fm b (tau c0 2) = fm x0 (tau c0 2) /\ fm b (tau c0 3) = (0, 0).
Proof. unfold b, xt_1. repeat split; rewrite !fm_inner, fm_from, !fm_edge, !teq by auto; reflexivity. Qed.
Lemma fcc : fm c (tau c0 0) = fm x1 (tau c1 2) /\ fm c (tau c0 1) = (0, 0) /\ fm c (tau c0 2) = (0, 0) /\ fm c (tau c0 3) = fm x0 (tau c0 3).
Proof. unfold c, xt_2. repeat split; rewrite !fm_inner, fm_from, !fm_edge, !teq by auto; reflexivity. Qed.

Let T (e : Z) := (tg (taued c1 e), rf (taued c1 e)).
Let d := taued c0.
Ltac ed := rewrite !em_inner, em_from, !em_edge; rewrite ?Z.eqb_refl, ?taued_inj by lia; reflexivity.
Lemma ea : em a (d 0) = (0, 0) /\ em a (d 1) = em x0 (d 1) /\ em a (d 2) = em x0 (d 2) /\ em a (d 3) = T 2 /\ em a (d 4) = T 1 /\ em a (d 5) = T 5.
Proof. unfold a, xt_0, d, T. repeat split; ed. Qed.
Lemma eb : em b (d 0) = em x0 (d 0) /\ em b (d 1) = (0, 0) /\ em b (d 2) = em x0 (d 2) /\ em b (d 3) = T 0 /\ em b (d 4) = T 3 /\ em b (d 5) = T 1.
Proof. unfold b, xt_1, d, T. repeat split; ed. Qed.
Lemma ec : em c (d 0) = em x0 (d 0) /\ em c (d 1) = em x0 (d 1) /\ em c (d 2) = (0, 0) /\ em c (d 3) = T 4 /\ em c (d 4) = T 0 /\ em c (d 5) = T 2.
Proof. unfold c, xt_2, d, T. repeat split; ed. Qed.
End Marks.

(** What the tetrahedra get. *)
Lemma gets_mark m0 m' q n X x v i : ST m0 m' q n X -> gets q n X x v -> loc i -> mark m' x i = fm v i.
Proof.
  intros (_ & Q & _ & _ & _ & XX & _) G L. unfold gets in G. unfold mark. rewrite Q. destruct (isx v) eqn:E.
  - destruct G as [B <-]. destruct (Z.eqb_spec (q x) 0); [lia|]. rewrite XX by lia. reflexivity.
  - rewrite G. cbn. symmetry. apply isx_no; assumption.
Qed.
Lemma gets_etag m0 m' q n X x v e : ST m0 m' q n X -> gets q n X x v -> qxt (aget (m_tet m') x) <> 0 -> etag m' x e = em v e.
Proof.
  intros (_ & Q & _ & _ & _ & XX & _) G N. unfold gets in G. unfold etag. rewrite Q in *. destruct (isx v) eqn:E; [|contradiction].
  destruct G as [B <-]. destruct (Z.eqb_spec (q x) 0); [lia|]. rewrite XX by lia. reflexivity.
Qed.
