(** Property C84: each special edge of a surface mesh is returned once. *)
From Coq Require Import ZArith List Lia Bool.
From Verif Require Import CBase SurfModel Tria2 PropsTria2 EdgesS.
Import ListNotations.
Open Scope Z_scope.

(** ** Specification *)

(** Edge [i] of the triangle [k]; its place in the tables. *)
Definition s_side (nt k i : Z) : Prop := 1 <= k <= nt /\ 0 <= i < 3.
Definition s_place (k i : Z) : Z := 3 * (k - 1) + 1 + i.
(** The next corner. *)
Definition s_next (i : Z) : Z := (i + 1) mod 3.
(** A ridge or an edge with a reference (bits 1 and 0 of its mark). *)
Definition special (tg : arr Z) (k i : Z) : Prop :=
  Z.testbit (aget tg (s_place k i)) 1 = true \/ Z.testbit (aget tg (s_place k i)) 0 = true.
(** The edge [i] of [k] is the edge [j] of [l]. *)
Definition mates (adj : arr Z) (k i l j : Z) : Prop :=
  aget adj (s_place k i) = 3 * l + j /\ aget adj (s_place l j) = 3 * k + i.

(** A packed surface mesh: the neighbours are symmetric and their edge is special
    on both sides or on none. *)
Record surf (nt : Z) (vt : arr (Z -> Z)) (rf er tg adj tmp : arr Z) : Prop := {
  su_nt : 0 <= nt;
  su_vt : nt < alen vt;
  su_rf : nt < alen rf;
  su_er : 3 * nt < alen er;
  su_tg : 3 * nt < alen tg;
  su_adj : 3 * nt < alen adj;
  su_v : forall k i, s_side nt k i -> 0 < aget vt k i < alen tmp;
  su_mates : forall k i, s_side nt k i -> aget adj (s_place k i) = 0 \/
    exists l j, s_side nt l j /\ l <> k /\ mates adj k i l j /\ (special tg k i <-> special tg l j)
}.

(** The edge of a side: numbers of the ends, reference and mark. *)
Definition edge_of (vt : arr (Z -> Z)) (er tg tmp : arr Z) (p : Z * Z) : sedge :=
  mkSE (aget tmp (aget vt (fst p) (s_next (snd p)))) (aget tmp (aget vt (fst p) (s_next (s_next (snd p)))))
       (aget er (s_place (fst p) (snd p))) (aget tg (s_place (fst p) (snd p))).

(** One side of each special edge. *)
Definition one_side_each (nt : Z) (tg adj : arr Z) (S : list (Z * Z)) : Prop :=
  NoDup S /\
  (forall k i, In (k, i) S -> s_side nt k i /\ special tg k i) /\
  (forall k i, s_side nt k i -> special tg k i -> aget adj (s_place k i) = 0 -> In (k, i) S) /\
  (forall k i l j, s_side nt k i -> special tg k i -> s_side nt l j -> l <> k -> mates adj k i l j ->
     (In (k, i) S /\ ~ In (l, j) S) \/ (~ In (k, i) S /\ In (l, j) S)).

(** ** C84 *)

Lemma edg_special tg k i : edg (aget tg (scell k i)) = true <-> special tg k i.
Proof.
  unfold edg, special. change (scell k i) with (s_place k i). change G_GEO with (2 ^ 1). change G_REF with (2 ^ 0).
  rewrite !tst_bit by lia. apply orb_true_iff.
Qed.

Lemma mate_quot l j : 1 <= l -> 0 <= j < 3 -> Z.quot (3 * l + j) 3 = l.
Proof. intros A B. rewrite Z.quot_div_nonneg by lia. replace (3 * l + j) with (j + l * 3) by lia. rewrite Z.div_add, Z.div_small by lia. lia. Qed.

Lemma rows_one nt vt rf er tg adj tmp : surf nt vt rf er tg adj tmp -> one_side_each nt tg adj (rows rf tg adj nt).
Proof.
  intros M. pose proof (su_nt _ _ _ _ _ _ _ M) as P. split; [apply rows_nodup|].
  assert (IN : forall k i, In (k, i) (rows rf tg adj nt) <-> s_side nt k i /\ fh rf tg adj k i = true).
  { intros k i. rewrite (rows_in rf tg adj nt k i P). unfold s_side. tauto. }
  split; [|split].
  - intros k i X. apply IN in X. destruct X as [S F]. split; [exact S|]. unfold fh in F. apply andb_prop in F. apply edg_special. tauto.
  - intros k i S X Z0. apply IN. split; [exact S|]. unfold fh. apply edg_special in X. rewrite X. cbn [andb].
    change (scell k i) with (s_place k i). rewrite Z0. reflexivity.
  - intros k i l j Sk X Sl N Mt.
    assert (X' : special tg l j).
    { destruct (su_mates _ _ _ _ _ _ _ M k i Sk) as [Z0|(l' & j' & S' & _ & [E1 _] & G)].
      - destruct Mt as [E _]. destruct Sl. lia.
      - destruct Mt as [E _]. destruct Sl as [L1 L2], S' as [L1' L2']. assert (l' = l /\ j' = j) as [-> ->] by lia. apply G. exact X. }
    destruct Mt as [E1 E2]. rewrite !IN. unfold fh. apply edg_special in X, X'. rewrite X, X'. cbn [andb].
    change (scell k i) with (s_place k i). change (scell l j) with (s_place l j).
    destruct Sk as [K1 K2], Sl as [L1 L2]. rewrite E1, E2, !mate_quot by lia.
    destruct (Z.eqb_spec l 0); [lia|]. destruct (Z.eqb_spec k 0); [lia|]. cbn [orb].
    rewrite (Z.eqb_sym (aget rf k) (aget rf l)).
    destruct (Z.ltb_spec (aget rf l) (aget rf k)), (Z.ltb_spec (aget rf k) (aget rf l)), (Z.eqb_spec (aget rf l) (aget rf k)),
      (Z.ltb_spec k l), (Z.ltb_spec l k); try lia; cbn; unfold s_side; intuition (congruence || lia).
Qed.

(** Missing: the number of edges counted while the triangles are moved (see PropsPackTriS.v), which is
    taken to be enough here. *)
Theorem special_edges_once_partial : forall nt vt rf er tg adj tmp na, surf nt vt rf er tg adj tmp ->
  (forall S, one_side_each nt tg adj S -> Z.of_nat (length S) <= na) ->
  exists S, one_side_each nt tg adj S /\ edges_s nt vt rf er tg adj tmp na = Ret (map (edge_of vt er tg tmp) S).
Proof.
  intros nt vt rf er tg adj tmp na M C. pose proof (rows_one _ _ _ _ _ _ _ M) as O.
  exists (rows rf tg adj nt). split; [exact O|]. rewrite (edges_s_ok nt vt rf er tg adj tmp na).
  - f_equal. apply map_ext_in. intros [k i] X. destruct O as (_ & O & _). destruct (O k i X) as [[_ S] _].
    unfold eof, edge_of. cbn [fst snd]. assert (i = 0 \/ i = 1 \/ i = 2) as [-> | [-> | ->]] by lia; reflexivity.
  - apply (su_nt _ _ _ _ _ _ _ M).
  - apply (su_vt _ _ _ _ _ _ _ M).
  - apply (su_rf _ _ _ _ _ _ _ M).
  - apply (su_er _ _ _ _ _ _ _ M).
  - apply (su_tg _ _ _ _ _ _ _ M).
  - apply (su_adj _ _ _ _ _ _ _ M).
  - intros k i K I. apply (su_v _ _ _ _ _ _ _ M). split; assumption.
  - intros k i K I. change (scell k i) with (s_place k i).
    destruct (su_mates _ _ _ _ _ _ _ M k i (conj K I)) as [-> |(l & j & [L1 L2] & _ & [-> _] & _)]; [cbn; lia | rewrite mate_quot; lia].
  - apply C. exact O.
Qed.

(** ** Cases *)

(** Two triangles 1 2 3 and 2 4 3 share the edge 2 3 (edge 0 of the first, edge 1
    of the second). *)
Definition two_vt : arr (Z -> Z) :=
  aof (fun _ => 0) [fun i => i + 1; fun i => if i =? 0 then 2 else if i =? 1 then 4 else 3].
Definition two_rf : arr Z := aof 0 [5; 5].
Definition six (l : list Z) : arr Z := aof 0 l.
Definition two_adj : arr Z := six [7; 0; 0; 0; 3; 0].
Definition ids5 : arr Z := mkArr 5 (fun i => i).
Definition ridge : arr Z := six [2; 0; 1; 0; 2; 0].

Lemma six_sides k i : s_side 2 k i -> (k = 1 /\ (i = 0 \/ i = 1 \/ i = 2)) \/ (k = 2 /\ (i = 0 \/ i = 1 \/ i = 2)).
Proof. intros [A B]. lia. Qed.

Example ridge_mesh : surf 2 two_vt two_rf (six [9; 0; 8; 0; 9; 0]) ridge two_adj ids5.
Proof.
  split; try (vm_compute; reflexivity); try lia.
  - intros k i S. destruct (six_sides k i S) as [[-> [-> | [-> | ->]]]|[-> [-> | [-> | ->]]]]; split; vm_compute; reflexivity.
  - intros k i S. destruct (six_sides k i S) as [[-> [-> | [-> | ->]]]|[-> [-> | [-> | ->]]]]; try (left; vm_compute; reflexivity).
    + right. exists 2, 1. split; [split; lia|]. split; [lia|]. split; [split; vm_compute; reflexivity|]. unfold special. vm_compute. tauto.
    + right. exists 1, 0. split; [split; lia|]. split; [lia|]. split; [split; vm_compute; reflexivity|]. unfold special. vm_compute. tauto.
Qed.
Example ridge_edges : edges_s 2 two_vt two_rf (six [9; 0; 8; 0; 9; 0]) ridge two_adj ids5 2 = Ret [mkSE 1 2 8 1; mkSE 3 2 9 2].
Proof. vm_compute. reflexivity. Qed.

(** If the edge is special on one side only, it may be lost. *)
Theorem edge_of_one_side_refuted : exists nt vt rf er tg adj tmp na k i l j,
  s_side nt k i /\ s_side nt l j /\ mates adj k i l j /\ special tg k i /\ 3 * nt <= na /\
  edges_s nt vt rf er tg adj tmp na = Ret [].
Proof.
  exists 2, two_vt, two_rf, (six [0; 0; 0; 0; 0; 0]), (six [2; 0; 0; 0; 0; 0]), two_adj, ids5, 6, 1, 0, 2, 1.
  split; [split; lia|]. split; [split; lia|]. split; [split; vm_compute; reflexivity|]. split; [left; vm_compute; reflexivity|].
  split; [lia|]. vm_compute. reflexivity.
Qed.

Print Assumptions special_edges_once_partial.
Print Assumptions edge_of_one_side_refuted.
