(** The turns of [MMG5_coquil], [MMG5_settag] and [MMG5_deltag]. *)
From Coq Require Import ZArith List Lia Bool.
From Verif Require Import CBase Tet3Model Tet3Spec Tet3Proofs Walk Tet3Shell.
Import ListNotations.
Open Scope Z_scope.

(** Local edge [i] of [k] joins [p] and [q]. *)
Definition edge_is (m : mesh) (k i p q : Z) : Prop :=
  0 <= i <= 5 /\ ((vtx m k (fst (iare i)) = p /\ vtx m k (snd (iare i)) = q) \/ (vtx m k (fst (iare i)) = q /\ vtx m k (snd (iare i)) = p)).

Definition required (m : mesh) (k : Z) : Prop := has_tag (qtag (aget (m_tet m) k)) MG_REQ = true.

Lemma edge_locs i : 0 <= i <= 5 ->
  let a := fst (iare i) in let b := snd (iare i) in let f0 := fst (ifar i) in let f1 := snd (ifar i) in
  loc a /\ loc b /\ loc f0 /\ loc f1 /\ a <> b /\ f0 <> f1 /\ f0 <> a /\ f0 <> b /\ f1 <> a /\ f1 <> b.
Proof.
  intros H. assert (C : i = 0 \/ i = 1 \/ i = 2 \/ i = 3 \/ i = 4 \/ i = 5) by lia.
  unfold loc. destruct C as [->|[->|[->|[->|[->| ->]]]]]; cbv; intuition discriminate.
Qed.
Lemma edge_num a b : loc a -> loc b -> a <> b -> exists i, 0 <= i <= 5 /\ ((fst (iare i) = a /\ snd (iare i) = b) \/ (fst (iare i) = b /\ snd (iare i) = a)).
Proof.
  intros La Lb N.
  destruct La as [->|[->|[->| ->]]], Lb as [->|[->|[->| ->]]]; try congruence;
  first [exists 0; split; [lia|]; first [left; split; reflexivity|right; split; reflexivity]|exists 1; split; [lia|]; first [left; split; reflexivity|right; split; reflexivity]|exists 2; split; [lia|]; first [left; split; reflexivity|right; split; reflexivity]|exists 3; split; [lia|]; first [left; split; reflexivity|right; split; reflexivity]|exists 4; split; [lia|]; first [left; split; reflexivity|right; split; reflexivity]|exists 5; split; [lia|]; first [left; split; reflexivity|right; split; reflexivity]].
Qed.
Lemma edge_num_eq i j : 0 <= i <= 5 -> 0 <= j <= 5 ->
  ((fst (iare i) = fst (iare j) /\ snd (iare i) = snd (iare j)) \/ (fst (iare i) = snd (iare j) /\ snd (iare i) = fst (iare j))) -> i = j.
Proof.
  intros Hi Hj. assert (C : i = 0 \/ i = 1 \/ i = 2 \/ i = 3 \/ i = 4 \/ i = 5) by lia. assert (D : j = 0 \/ j = 1 \/ j = 2 \/ j = 3 \/ j = 4 \/ j = 5) by lia.
  destruct C as [->|[->|[->|[->|[->| ->]]]]], D as [->|[->|[->|[->|[->| ->]]]]]; cbv; intuition discriminate.
Qed.

Section Turn.
Variable m : mesh.
Hypothesis T : tables_ok m.
Hypothesis VO : vertices_ok m.
Hypothesis A : adjacent m.
Variable p q : Z.
Hypothesis PQ : p <> q.

Notation V := (Vs m p q).
Notation rvs := (rv m p q).
Notation stps := (stp m p q).
Notation pathS := (path state stps).

Lemma findEdge_ok k : live m k -> has m k p -> has m k q -> edge_is m k (findEdge (aget (m_tet m) k) p q) p q.
Proof.
  intros L (a & La & Ea) (b & Lb & Eb). assert (N : a <> b) by (intros ->; congruence).
  unfold findEdge. match goal with |- edge_is _ _ (first ?F _ _) _ _ => destruct (first_spec F [0; 1; 2; 3; 4; 5] 6) as [(x & I & R & Tx)|[_ Tx]] end.
  - rewrite R. split; [cbn in I; lia|]. destruct (iare x) as [u v] eqn:E. cbn [fst snd]. apply orb_true_iff in Tx.
    rewrite !andb_true_iff, !Z.eqb_eq in Tx. exact Tx.
  - exfalso. destruct (edge_num a b La Lb N) as (i & Hi & C). assert (I : In i [0; 1; 2; 3; 4; 5]) by (cbn; lia). specialize (Tx i I). cbv beta in Tx.
    destruct (iare i) as [u v]. cbn [fst snd] in C. apply orb_false_iff in Tx. rewrite !andb_false_iff, !Z.eqb_neq in Tx.
    unfold vtx in Ea, Eb. destruct C as [[-> ->]|[-> ->]]; intuition congruence.
Qed.

Lemma findEdge_at k i : live m k -> edge_is m k i p q -> findEdge (aget (m_tet m) k) p q = i.
Proof.
  intros L [Hi E]. pose proof (edge_locs i Hi) as (La & Lb & _). cbv zeta in *.
  assert (HP : has m k p) by (destruct E as [[E _]|[_ E]]; [exists (fst (iare i))|exists (snd (iare i))]; auto).
  assert (HQ : has m k q) by (destruct E as [[_ E]|[E _]]; [exists (snd (iare i))|exists (fst (iare i))]; auto).
  destruct (findEdge_ok k L HP HQ) as [Hj E']. set (j := findEdge _ _ _) in *. pose proof (edge_locs j Hj) as (La' & Lb' & _).
  destruct (VO k L) as [_ J]. apply edge_num_eq; [exact Hj|exact Hi|].
  destruct E as [[E1 E2]|[E1 E2]], E' as [[E3 E4]|[E3 E4]]; [left|right|right|left]; split; apply J; auto; congruence.
Qed.

(** The two faces around the edge. *)
Lemma far_states k i : live m k -> edge_is m k i p q ->
  V (k, fst (ifar i)) /\ rvs (k, fst (ifar i)) = (k, snd (ifar i)) /\ rvs (k, snd (ifar i)) = (k, fst (ifar i)).
Proof.
  intros L [Hi E]. pose proof (edge_locs i Hi) as (La & Lb & L0 & L1 & Nab & N01 & N0a & N0b & N1a & N1b). destruct (VO k L) as [_ J].
  assert (HP : has m k p) by (destruct E as [[E _]|[_ E]]; [exists (fst (iare i))|exists (snd (iare i))]; auto).
  assert (HQ : has m k q) by (destruct E as [[_ E]|[E _]]; [exists (snd (iare i))|exists (fst (iare i))]; auto).
  assert (NE : forall f, loc f -> f <> fst (iare i) -> f <> snd (iare i) -> vtx m k f <> p /\ vtx m k f <> q).
  { intros f Lf Na Nb. destruct E as [[E1 E2]|[E1 E2]]; split; intros X; first [apply Na, J; congruence|apply Nb, J; congruence]. }
  destruct (NE _ L0 N0a N0b) as [P0 Q0]. destruct (NE _ L1 N1a N1b) as [P1 Q1].
  assert (V0 : V (k, fst (ifar i))) by (repeat (split; [assumption|]); assumption).
  assert (V1 : V (k, snd (ifar i))) by (repeat (split; [assumption|]); assumption).
  split; [exact V0|]. split.
  - rewrite (surjective_pairing (rvs _)). cbn [fst]. f_equal. apply (oth_unique m VO p q PQ (k, fst (ifar i))); try assumption. cbn [snd]. congruence.
  - rewrite (surjective_pairing (rvs _)). cbn [fst]. f_equal. apply (oth_unique m VO p q PQ (k, snd (ifar i))); try assumption.
Qed.

Lemma turn_idx t : V t ->
  let pt := aget (m_tet m) (fst t) in let i := findEdge pt p q in let f0 := fst (ifar i) in let f1 := snd (ifar i) in
  let first := qv pt f0 =? vtx m (fst t) (snd t) in
  edge_is m (fst t) i p q /\ (if first then f0 else f1) = snd t /\ (if first then f1 else f0) = snd (rvs t).
Proof.
  intros H. cbv zeta. pose proof H as (L & HP & HQ & Lf & _). pose proof (findEdge_ok (fst t) L HP HQ) as E. split; [exact E|].
  set (i := findEdge _ p q) in *. destruct (far_states (fst t) i L E) as (V0 & R0 & R1). destruct (VO (fst t) L) as [_ J].
  pose proof (edge_locs i (proj1 E)) as (_ & _ & L0 & L1 & _ & N01 & _).
  change (qv (aget (m_tet m) (fst t)) (fst (ifar i))) with (vtx m (fst t) (fst (ifar i))).
  destruct (el_eq m VO p q PQ _ t V0 H eq_refl) as [Et|Et].
  - rewrite Et. cbn [fst snd]. rewrite Z.eqb_refl, R0. cbn [snd]. auto.
  - rewrite R0 in Et. rewrite Et. cbn [fst snd]. destruct (Z.eqb_spec (vtx m (fst t) (fst (ifar i))) (vtx m (fst t) (snd (ifar i)))) as [X|_].
    + exfalso. apply N01, J; assumption.
    + rewrite R1. cbn [snd]. auto.
Qed.

Definition ent (t : state) : Z := 6 * fst t + findEdge (aget (m_tet m) (fst t)) p q.

Lemma ent_dec t : V t -> ent t / 6 = fst t /\ edge_is m (fst t) (ent t mod 6) p q.
Proof.
  intros H. pose proof (turn_idx t H) as (E & _). pose proof (proj1 E) as B. unfold ent. set (i := findEdge _ p q) in *.
  replace ((6 * fst t + i) / 6) with (fst t) by (apply Z.div_unique with i; lia).
  replace ((6 * fst t + i) mod 6) with i by (apply Z.mod_unique with (fst t); lia). auto.
Qed.

(** What is before the next turn. *)
Definition nxt_el (s : state) : Z := nb m (fst s) (snd s) / 4.
Definition nxt_pv (s : state) : Z := vtx m (fst s) (snd (rvs s)).

Lemma next_el s : V s -> (nxt_el s = 0 /\ stps s = None) \/ exists t, stps s = Some t /\ fst t = nxt_el s /\ nxt_el s <> 0 /\ vtx m (fst t) (snd t) = nxt_pv s.
Proof.
  intros H. destruct (stps s) as [t|] eqn:E.
  - right. exists t. destruct (step_ok m VO A p q PQ s t H E) as (E1 & VT & _ & _ & _ & EV & _). split; [reflexivity|]. split; [exact E1|]. split; [|exact EV].
    unfold nxt_el. rewrite <- E1. destruct VT as (L & _). apply live_pos in L. lia.
  - left. split; [|reflexivity]. unfold stp in E. unfold nxt_el. destruct (Z.eqb_spec (nb m (fst s) (snd s)) 0) as [->|]; [reflexivity|discriminate].
Qed.

Hypothesis X : xt_ok m.

Lemma face_bdy_ok k f : live m k -> face_bdy m (aget (m_tet m) k) f = Ret (fbdy m k f).
Proof.
  intros L. unfold face_bdy, fbdy. destruct (Z.eqb_spec (qxt (aget (m_tet m) k)) 0); [reflexivity|].
  unfold get_x. rewrite rd_ok by (apply X, L). reflexivity.
Qed.

Definition bdys (ts : list state) : bool := existsb (fun t => fbdy m (fst t) (snd t)) ts.

Lemma coquil_one_ok start fuel : forall s l b, V s -> LMAX <= Z.of_nat fuel + Z.of_nat (length l) -> Z.of_nat (length l) <= LMAX - 3 ->
  exists ts, pathS s ts /\
  ( (coquil_one fuel m start p q (nxt_el s) (nxt_pv s) l b = Ret (Failed 0) /\ exists t, In t ts /\ required m (fst t) /\ fst t <> start) \/
    (coquil_one fuel m start p q (nxt_el s) (nxt_pv s) l b = Ret (Failed (-1)) /\ ~ In start (map fst ts) /\ Z.of_nat (length l + length ts) > LMAX - 3) \/
    (exists u, last (s :: ts) s = u /\ ~ In start (map fst ts) /\ (forall t, In t ts -> ~ required m (fst t)) /\
       coquil_one fuel m start p q (nxt_el s) (nxt_pv s) l b = Ret (Walked (nxt_el u) (nxt_pv u) (l ++ map ent ts) (b || bdys ts)) /\
       (nxt_el u = 0 \/ nxt_el u = start))).
Proof.
  induction fuel as [|fuel IH]; intros s l b H LF LL; [exfalso; cbn in LF; lia|]. cbn [coquil_one].
  destruct (next_el s H) as [[E0 EN]|(t & Et & Ef & E0 & EV)].
  - rewrite E0. cbn [Z.eqb orb]. exists []. split; [constructor|]. right; right. exists s. split; [reflexivity|]. split; [intros []|]. split; [intros ? []|].
    rewrite app_nil_r, orb_false_r, E0. auto.
  - rewrite (proj2 (Z.eqb_neq _ _) E0). cbn [orb]. destruct (Z.eqb_spec (nxt_el s) start) as [ES|NS].
    + exists []. split; [constructor|]. right; right. exists s. split; [reflexivity|]. split; [intros []|]. split; [intros ? []|].
      rewrite app_nil_r, orb_false_r. auto.
    + pose proof (V_step m VO A p q PQ s t H Et) as VT. pose proof VT as (Lt & _ & _ & Lf & _). rewrite <- Ef.
      rewrite get_t_ok by (apply live_intab; assumption). cbn [bind].
      destruct (has_tag (qtag (aget (m_tet m) (fst t))) MG_REQ) eqn:RQ.
      { exists [t]. split; [econstructor; [exact Et|constructor]|]. left. split; [reflexivity|]. exists t. split; [left; reflexivity|]. split; [exact RQ|]. congruence. }
      destruct (turn_idx t VT) as (EI & I1 & I2). cbv zeta in I1, I2. rewrite EV in I1, I2.
      change (6 * fst t + findEdge (aget (m_tet m) (fst t)) p q) with (ent t).
      set (i := findEdge (aget (m_tet m) (fst t)) p q) in *. cbv zeta.
      destruct (Z.eqb_spec i 6) as [I6|_]; [destruct EI; lia|].
      destruct (Z.gtb_spec (Z.of_nat (length (l ++ [ent t]))) (LMAX - 3)) as [TM|SM].
      { exists [t]. split; [econstructor; [exact Et|constructor]|]. right; left. split; [reflexivity|]. rewrite app_length in TM. cbn [length map In] in *.
        split; [intros [?|[]]; congruence|lia]. }
      rewrite I1, I2. change (qv (aget (m_tet m) (fst t)) (snd t)) with (vtx m (fst t) (snd t)). rewrite EV, Z.eqb_refl. cbn [c_assert bind].
      rewrite get_adj_ok by (try apply live_intab; assumption). cbn [bind].
      assert (EB : (if b then Ret true else face_bdy m (aget (m_tet m) (fst t)) (snd t)) = Ret (b || fbdy m (fst t) (snd t))).
      { destruct b; [reflexivity|]. apply face_bdy_ok, Lt. }
      rewrite EB. cbn [bind]. change (nb m (fst t) (snd t) / 4) with (nxt_el t). change (qv (aget (m_tet m) (fst t)) (snd (rvs t))) with (nxt_pv t).
      destruct (IH t (l ++ [ent t]) (b || fbdy m (fst t) (snd t)) VT) as (ts & P & C); [rewrite app_length; cbn [length]; lia|exact SM|].
      exists (t :: ts). split; [econstructor; [exact Et|exact P]|].
      destruct C as [(R & w & Iw & Hw)|[(R & N & Le)|(u & EL & N & NR & R & D)]].
      * left. split; [exact R|]. exists w. split; [right; exact Iw|exact Hw].
      * right; left. split; [exact R|]. split; [intros [?|?]; [congruence|contradiction]|]. rewrite app_length in Le. cbn [length] in *. lia.
      * right; right. exists u. split; [rewrite <- EL; change (last (t :: ts) s = last (t :: ts) t); apply path_last_end|].
        split; [intros [?|?]; [congruence|contradiction]|]. split; [intros w [<-|Iw]; [unfold required; congruence|apply NR, Iw]|].
        split; [|exact D]. rewrite R. rewrite <- app_assoc, <- orb_assoc. reflexivity.
Qed.

Lemma coquil_two_ok fuel : forall s l, V s -> LMAX <= Z.of_nat fuel + Z.of_nat (length l) -> Z.of_nat (length l) <= LMAX - 2 ->
  exists ts, pathS s ts /\
  ( (coquil_two fuel m p q (nb m (fst s) (snd s)) (nxt_pv s) l = Ret (Failed 0) /\ exists t, In t ts /\ required m (fst t)) \/
    (coquil_two fuel m p q (nb m (fst s) (snd s)) (nxt_pv s) l = Ret (Failed (-1)) /\ Z.of_nat (length l + length ts) > LMAX - 2) \/
    (exists u, last (s :: ts) s = u /\ stps u = None /\ (forall t, In t ts -> ~ required m (fst t)) /\
       coquil_two fuel m p q (nb m (fst s) (snd s)) (nxt_pv s) l = Ret (Walked 0 (nxt_pv u) (l ++ map ent ts) true))).
Proof.
  induction fuel as [|fuel IH]; intros s l H LF LL; [exfalso; cbn in LF; lia|]. cbn [coquil_two].
  destruct (stps s) as [t|] eqn:Et.
  - destruct (step_ok m VO A p q PQ s t H Et) as (E1 & VT & _ & _ & _ & EV & NZ & _). rewrite (proj2 (Z.eqb_neq _ _) NZ). rewrite <- E1.
    pose proof VT as (Lt & _ & _ & Lf & _). change (vtx m (fst s) (snd (rvs s))) with (nxt_pv s) in EV.
    rewrite get_t_ok by (apply live_intab; assumption). cbn [bind].
    destruct (has_tag (qtag (aget (m_tet m) (fst t))) MG_REQ) eqn:RQ.
    { exists [t]. split; [econstructor; [exact Et|constructor]|]. left. split; [reflexivity|]. exists t. split; [left; reflexivity|exact RQ]. }
    destruct (turn_idx t VT) as (EI & I1 & I2). cbv zeta in I1, I2. rewrite EV in I1, I2.
    change (6 * fst t + findEdge (aget (m_tet m) (fst t)) p q) with (ent t).
    set (i := findEdge (aget (m_tet m) (fst t)) p q) in *. cbv zeta.
    destruct (Z.eqb_spec i 6) as [I6|_]; [destruct EI; lia|].
    destruct (Z.gtb_spec (Z.of_nat (length (l ++ [ent t]))) (LMAX - 2)) as [TM|SM].
    { exists [t]. split; [econstructor; [exact Et|constructor]|]. right; left. split; [reflexivity|]. rewrite app_length in TM. cbn [length] in *. lia. }
    rewrite I1, I2. rewrite get_adj_ok by (try apply live_intab; assumption). cbn [bind].
    change (qv (aget (m_tet m) (fst t)) (snd (rvs t))) with (nxt_pv t).
    destruct (IH t (l ++ [ent t]) VT) as (ts & P & C); [rewrite app_length; cbn [length]; lia|exact SM|].
    exists (t :: ts). split; [econstructor; [exact Et|exact P]|].
    destruct C as [(R & w & Iw & Hw)|[(R & Le)|(u & EL & N & NR & R)]].
    + left. split; [exact R|]. exists w. split; [right; exact Iw|exact Hw].
    + right; left. split; [exact R|]. rewrite app_length in Le. cbn [length] in *. lia.
    + right; right. exists u. split; [rewrite <- EL; change (last (t :: ts) s = last (t :: ts) t); apply path_last_end|].
      split; [exact N|]. split; [intros w [<-|Iw]; [unfold required; congruence|apply NR, Iw]|].
      rewrite R. rewrite <- app_assoc. reflexivity.
  - assert (NZ : nb m (fst s) (snd s) = 0) by (unfold stp in Et; destruct (Z.eqb_spec (nb m (fst s) (snd s)) 0); [assumption|discriminate]).
    rewrite NZ. exists []. split; [constructor|]. right; right. exists s. split; [reflexivity|]. split; [exact Et|]. split; [intros ? []|]. rewrite app_nil_r. reflexivity.
Qed.
End Turn.
