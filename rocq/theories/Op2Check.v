(** A decision procedure for conformity, used for the concrete meshes. *)
From Coq Require Import ZArith List Lia Bool.
From Verif Require Import CBase Chain Op2Model Op2Spec Op2Proofs.
Import ListNotations.
Open Scope Z_scope.

Definition liveb (m : mesh) (k : Z) : bool := (1 <=? k) && (k <? alen (m_tri m)) && (0 <? vtx m k 0).
Definition lives (m : mesh) : list Z := filter (liveb m) (zrange 1 (alen (m_tri m))).
Definition locs : list Z := [0; 1; 2].
Definition halves (m : mesh) : list (Z * Z) := list_prod (lives m) locs.

Lemma liveb_ok m k : liveb m k = true <-> live m k.
Proof. unfold liveb, live. rewrite !andb_true_iff, Z.leb_le, !Z.ltb_lt. reflexivity. Qed.

Lemma lives_ok m k : In k (lives m) <-> live m k.
Proof.
  unfold lives. rewrite filter_In, liveb_ok. split; [tauto|]. intros H. split; [|exact H]. apply in_zrange. destruct H. lia.
Qed.
Lemma locs_ok i : In i locs <-> loc i.
Proof. unfold locs, loc. cbn. intuition. Qed.
Lemma halves_ok m k i : In (k, i) (halves m) <-> live m k /\ loc i.
Proof. unfold halves. rewrite in_prod_iff, lives_ok, locs_ok. reflexivity. Qed.

Definition pair_eqb (a b : Z * Z) : bool := (fst a =? fst b) && (snd a =? snd b).
Lemma pair_eqb_ok a b : pair_eqb a b = true <-> a = b.
Proof. destruct a, b. unfold pair_eqb. cbn. rewrite andb_true_iff, !Z.eqb_eq. split; [intros []; congruence|intros E; inversion E; auto]. Qed.

Definition orientedb (m : mesh) : bool :=
  forallb (fun h => forallb (fun g => negb (pair_eqb (ends m (fst h) (snd h)) (ends m (fst g) (snd g))) || pair_eqb h g) (halves m)) (halves m).

Lemma orientedb_ok m : orientedb m = true -> oriented m.
Proof.
  unfold orientedb. rewrite forallb_forall. intros H k i l j Lk Ll Li Lj E.
  specialize (H (k, i) (proj2 (halves_ok m k i) (conj Lk Li))). rewrite forallb_forall in H.
  specialize (H (l, j) (proj2 (halves_ok m l j) (conj Ll Lj))). cbn [fst snd] in H.
  rewrite E in H. rewrite (proj2 (pair_eqb_ok _ _) eq_refl) in H. cbn in H. apply pair_eqb_ok in H. inversion H. auto.
Qed.

Definition adjacentb (m : mesh) : bool :=
  forallb (fun h => let n := nb m (fst h) (snd h) in
    if n =? 0 then forallb (fun g => negb (pair_eqb (ends m (fst g) (snd g)) (swp (ends m (fst h) (snd h))))) (halves m)
    else liveb m (n / 3) && pair_eqb (ends m (n / 3) (n mod 3)) (swp (ends m (fst h) (snd h)))) (halves m).

Lemma adjacentb_ok m : adjacentb m = true -> adjacent m.
Proof.
  unfold adjacentb. rewrite forallb_forall. intros H k i Lk Li.
  specialize (H (k, i) (proj2 (halves_ok m k i) (conj Lk Li))). cbn [fst snd] in H.
  destruct (Z.eqb_spec (nb m k i) 0) as [E|N].
  - left. split; [exact E|]. intros l j Ll Lj E'. rewrite forallb_forall in H.
    specialize (H (l, j) (proj2 (halves_ok m l j) (conj Ll Lj))). cbn [fst snd] in H. apply negb_true_iff in H.
    rewrite (proj2 (pair_eqb_ok _ _) E') in H. discriminate.
  - right. apply andb_true_iff in H. destruct H as [H1 H2]. apply liveb_ok in H1. apply pair_eqb_ok in H2.
    exists (nb m k i / 3), (nb m k i mod 3). pose proof (Z.div_mod (nb m k i) 3). pose proof (loc_mod (nb m k i)).
    repeat split; try assumption; try apply H1. lia.
Qed.

Definition aliveb (m : mesh) (p : Z) : bool :=
  (1 <=? p) && (p <? alen (m_ptag m)) && (0 <=? aget (m_ptag m) p) && (aget (m_ptag m) p <? MG_NUL).
Lemma aliveb_ok m p : aliveb m p = true <-> alive m p.
Proof. unfold aliveb, alive. rewrite !andb_true_iff, !Z.leb_le, !Z.ltb_lt. tauto. Qed.

Definition verticesb (m : mesh) : bool :=
  forallb (fun k => aliveb m (vtx m k 0) && aliveb m (vtx m k 1) && aliveb m (vtx m k 2) &&
    negb (vtx m k 0 =? vtx m k 1) && negb (vtx m k 1 =? vtx m k 2) && negb (vtx m k 2 =? vtx m k 0)) (lives m).

Lemma verticesb_ok m : verticesb m = true -> vertices_ok m.
Proof.
  unfold verticesb. rewrite forallb_forall. intros H k Lk. specialize (H k (proj2 (lives_ok m k) Lk)).
  rewrite !andb_true_iff, !aliveb_ok, !negb_true_iff, !Z.eqb_neq in H. tauto.
Qed.

Fixpoint chainb (fuel : nat) (m : mesh) (n : Z) : option (list Z) :=
  if n =? 0 then Some []
  else match fuel with
       | O => None
       | S f => if (1 <=? n) && (n <? m_ntmax m) && negb (liveb m n) then
                  match chainb f m (vtx m n 2) with
                  | Some l => if existsb (Z.eqb n) l then None else Some (n :: l)
                  | None => None
                  end
                else None
       end.

Lemma chainb_ok fuel m : forall n l, chainb fuel m n = Some l -> chain m n l.
Proof.
  induction fuel as [|f IH]; intros n l; cbn [chainb]; destruct (Z.eqb_spec n 0) as [->|N]; try discriminate;
    try (intros E; inversion E; constructor).
  destruct ((1 <=? n) && (n <? m_ntmax m) && negb (liveb m n)) eqn:B; [|discriminate].
  rewrite !andb_true_iff, Z.leb_le, Z.ltb_lt, negb_true_iff in B. destruct B as [[B1 B2] B3].
  destruct (chainb f m (vtx m n 2)) as [l'|] eqn:C; [|discriminate].
  destruct (existsb (Z.eqb n) l') eqn:X; [discriminate|]. intros E. inversion E. constructor.
  - lia.
  - intros H1. apply liveb_ok in H1. congruence.
  - intros H1. assert (existsb (Z.eqb n) l' = true) by (apply existsb_exists; exists n; split; [exact H1|apply Z.eqb_refl]). congruence.
  - apply IH, C.
Qed.

Definition tablesb (m : mesh) : bool :=
  (alen (m_tri m) =? m_ntmax m + 1) && (alen (m_adj m) =? 3 * m_ntmax m + 5) && (0 <=? m_nt m) && (m_nt m <? m_ntmax m) &&
  (vtx m (m_ntmax m) 2 =? 0) && forallb (fun k => k <=? m_nt m) (lives m) &&
  match chainb (Z.to_nat (m_ntmax m)) m (m_nil m) with Some _ => true | None => false end &&
  forallb (fun g => 1 <=? fst g) (m_gaps m).

Lemma tablesb_ok m : tablesb m = true -> tables_ok m.
Proof.
  unfold tablesb. rewrite !andb_true_iff, !Z.eqb_eq, Z.leb_le, Z.ltb_lt, !forallb_forall.
  intros (((((((A & B) & C) & D) & E) & F) & G) & H). repeat split; try assumption.
  - intros k Lk. apply Z.leb_le, F, lives_ok, Lk.
  - destruct (chainb _ m (m_nil m)) as [l|] eqn:X; [|discriminate]. exists l. eapply chainb_ok, X.
  - intros g b I. apply H in I. apply Z.leb_le in I. exact I.
Qed.

Definition conformingb (m : mesh) : bool := tablesb m && verticesb m && orientedb m && adjacentb m.
Lemma conformingb_ok m : conformingb m = true -> conforming m.
Proof.
  unfold conformingb. rewrite !andb_true_iff. intros (((A & B) & C) & D).
  split; [apply tablesb_ok, A|]. split; [apply verticesb_ok, B|]. split; [apply orientedb_ok, C|apply adjacentb_ok, D].
Qed.

Definition tagsb (m : mesh) : bool :=
  forallb (fun h => let n := nb m (fst h) (snd h) in (n =? 0) ||
    ((tag m (n / 3) (n mod 3) =? tag m (fst h) (snd h)) && (edg m (n / 3) (n mod 3) =? edg m (fst h) (snd h)))) (halves m).
Lemma tagsb_ok m : tagsb m = true -> tags_agree m.
Proof.
  unfold tagsb. rewrite forallb_forall. intros H k i Lk Li N.
  specialize (H (k, i) (proj2 (halves_ok m k i) (conj Lk Li))). cbn [fst snd] in H.
  apply orb_true_iff in H. rewrite andb_true_iff, !Z.eqb_eq in H. tauto.
Qed.

Definition unusedb (m : mesh) (p : Z) : bool := forallb (fun h => negb (vtx m (fst h) (snd h) =? p)) (halves m).
Lemma unusedb_ok m p : unusedb m p = true -> unused m p.
Proof.
  unfold unusedb. rewrite forallb_forall. intros H k i Lk Li E.
  specialize (H (k, i) (proj2 (halves_ok m k i) (conj Lk Li))). cbn [fst snd] in H. rewrite E, Z.eqb_refl in H. discriminate.
Qed.

Definition not_an_edgeb (m : mesh) (p q : Z) : bool :=
  forallb (fun h => negb (pair_eqb (ends m (fst h) (snd h)) (p, q)) && negb (pair_eqb (ends m (fst h) (snd h)) (q, p))) (halves m).
Lemma not_an_edgeb_ok m p q : not_an_edgeb m p q = true -> not_an_edge m p q.
Proof.
  unfold not_an_edgeb. rewrite forallb_forall. intros H k i Lk Li.
  specialize (H (k, i) (proj2 (halves_ok m k i) (conj Lk Li))). cbn [fst snd] in H.
  rewrite andb_true_iff, !negb_true_iff in H. destruct H as [A B].
  split; intros E; apply pair_eqb_ok in E; congruence.
Qed.

(** Construction of meshes from lists. *)
Definition triangle (a b c : Z) : tria := mkTria (fun i => if i =? 0 then a else if i =? 1 then b else c) (fun _ => 0) (fun _ => 0) 0.
Definition free (n : Z) : tria := mkTria (fun i => if i =? 2 then n else 0) (fun _ => 0) (fun _ => 0) 0.
