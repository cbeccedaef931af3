(** Basic facts about the tables of a tetrahedral mesh. *)
From Coq Require Import ZArith List Lia Bool.
From Verif Require Import CBase Tet3Model Tet3Spec.
Import ListNotations.
Open Scope Z_scope.

(** ** Local numbers *)

Lemma loc_le i : loc i <-> 0 <= i <= 3.
Proof. unfold loc; lia. Qed.
Lemma dec_div l j : loc j -> (4 * l + j) / 4 = l.
Proof. intros H. apply loc_le in H. symmetry. apply Z.div_unique with j; lia. Qed.
Lemma dec_mod l j : loc j -> (4 * l + j) mod 4 = j.
Proof. intros H. apply loc_le in H. symmetry. apply Z.mod_unique with l; lia. Qed.
Lemma loc_mod x : loc (x mod 4).
Proof. pose proof (Z.mod_pos_bound x 4). unfold loc. lia. Qed.
Lemma loc_nxt i : loc i -> loc (inxt3 i).
Proof. intros [->|[->|[->| ->]]]; cbn; unfold loc; auto. Qed.

(** ** Reads *)

(** Tetrahedron [k] is in both tables. *)
Definition intab (m : mesh) (k : Z) : Prop :=
  0 <= k < alen (m_tet m) /\ 1 <= k /\ 4 * k < alen (m_adj m).

Lemma get_t_ok m k : intab m k -> get_t m k = Ret (aget (m_tet m) k).
Proof. intros H. apply rd_ok. apply H. Qed.
Lemma get_adj_ok m k i : intab m k -> loc i -> get_adj m k i = Ret (nb m k i).
Proof. intros H L. apply rd_ok. unfold intab, loc in *. lia. Qed.

Lemma live_intab m k : tables_ok m -> live m k -> intab m k.
Proof.
  intros (A & B & C & _ & D & _) H. pose proof (D k H). destruct H as [H _]. unfold intab. lia.
Qed.

Lemma live_pos m k : live m k -> 1 <= k.
Proof. intros [H _]. lia. Qed.

(** ** Adjacency *)

Lemma same_sym m k i l j : same_face m k i l j -> same_face m l j k i.
Proof. intros H p. rewrite (H p). reflexivity. Qed.
Lemma same_trans m k i l j k' i' : same_face m k i l j -> same_face m l j k' i' -> same_face m k i k' i'.
Proof. intros H1 H2 p. rewrite (H1 p). apply H2. Qed.
Lemma same_refl m k i : same_face m k i k i.
Proof. intros p. reflexivity. Qed.

Lemma not_on m k i : vertices_ok m -> live m k -> loc i -> ~ on_face m k i (vtx m k i).
Proof. intros V L Li (a & La & N & E). destruct (V k L) as [_ J]. apply N, (J a i La Li E). Qed.
Lemma on_other m k i a : loc a -> a <> i -> on_face m k i (vtx m k a).
Proof. intros. exists a. auto. Qed.
Lemma on_face_iff m k i a : vertices_ok m -> live m k -> loc i -> loc a -> (on_face m k i (vtx m k a) <-> a <> i).
Proof.
  intros V L Li La. split; [|apply on_other, La]. intros H ->. exact (not_on m k i V L Li H).
Qed.
Lemma on_has m k i p : on_face m k i p -> has m k p.
Proof. intros (a & La & _ & E). exists a. auto. Qed.

Lemma same_self m k i j : vertices_ok m -> live m k -> loc i -> loc j -> same_face m k i k j -> i = j.
Proof.
  intros V L Li Lj S. destruct (Z.eq_dec i j) as [|N]; [assumption|exfalso].
  apply (not_on m k i V L Li). apply (S (vtx m k i)). apply on_other; assumption.
Qed.

Lemma nb_cases m k i : vertices_ok m -> adjacent m -> live m k -> loc i ->
  nb m k i = 0 \/ exists l j, live m l /\ loc j /\ nb m k i = 4 * l + j /\ nb m l j = 4 * k + i /\ l <> k /\ same_face m k i l j.
Proof.
  intros V A L Li. destruct (A k i L Li) as [[H _]|(l & j & Ll & Lj & E & N & S & U)]; [auto|right].
  exists l, j. assert (NK : l <> k).
  { intros ->. pose proof (same_self m k i j V L Li Lj S). lia. }
  do 3 (split; [assumption|]). split; [|split; assumption].
  destruct (A l j Ll Lj) as [[_ H]|(l' & j' & Ll' & Lj' & E' & N' & S' & U')].
  - destruct (H k i L Li (same_sym _ _ _ _ _ S)). congruence.
  - destruct (U' k i L Li (same_sym _ _ _ _ _ S)) as [[? ?]|[<- <-]]; [congruence|exact E'].
Qed.

(** The tetrahedron that shares a face is the neighbour. *)
Lemma nb_same m k i l j : vertices_ok m -> adjacent m -> live m k -> loc i -> live m l -> loc j -> l <> k ->
  same_face m k i l j -> nb m k i = 4 * l + j.
Proof.
  intros V A L Li Ll Lj N S. destruct (A k i L Li) as [[_ H]|(l' & j' & Ll' & Lj' & E & _ & _ & U)].
  - destruct (H l j Ll Lj S). contradiction.
  - destruct (U l j Ll Lj S) as [[? ?]|[-> ->]]; [contradiction|exact E].
Qed.

Lemma nb_dec m k i : vertices_ok m -> adjacent m -> live m k -> loc i -> nb m k i <> 0 ->
  let l := nb m k i / 4 in let j := nb m k i mod 4 in
  live m l /\ loc j /\ nb m l j = 4 * k + i /\ l <> k /\ same_face m k i l j.
Proof.
  intros V A L Li N. destruct (nb_cases m k i V A L Li) as [?|(l & j & Ll & Lj & E & B & K & S)]; [contradiction|].
  cbv zeta. rewrite E, dec_div, dec_mod by exact Lj. auto.
Qed.

(** ** A local number with a property *)

Lemma first_spec f l d : (exists a, In a l /\ first f l d = a /\ f a = true) \/ (first f l d = d /\ forall a, In a l -> f a = false).
Proof.
  induction l as [|x l IH]; cbn; [right; split; [reflexivity|intros a []]|].
  destruct (f x) eqn:E; [left; exists x; auto|].
  destruct IH as [(a & I & F & T)|[F T]]; [left; exists a; auto|right; split; [exact F|]].
  intros a [<-|I]; auto.
Qed.

Lemma first_vtx m k p : vertices_ok m -> live m k -> has m k p ->
  exists a, loc a /\ first (fun j => qv (aget (m_tet m) k) j =? p) [0; 1; 2; 3] 4 = a /\ vtx m k a = p.
Proof.
  intros V L (b & Lb & Eb). destruct (first_spec (fun j => qv (aget (m_tet m) k) j =? p) [0; 1; 2; 3] 4) as [(a & I & F & T)|[F T]].
  - exists a. split; [|split; [exact F|apply Z.eqb_eq, T]]. cbn in I. unfold loc. intuition.
  - exfalso. assert (I : In b [0; 1; 2; 3]) by (unfold loc in Lb; cbn; intuition). specialize (T b I). apply Z.eqb_neq in T. apply T. exact Eb.
Qed.
