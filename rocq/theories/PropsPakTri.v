(** Properties C82 and C83: the packing of the triangles before the adjacency
    table is made in Mmgs, and the creation of triangles afterwards. *)
From Coq Require Import ZArith List Lia Bool Permutation.
From Verif Require Import CBase PakTri.
Import ListNotations.
Open Scope Z_scope.

(** ** Specification *)

(** The triangle [k] is in use. *)
Definition tri_used (s : ms) (k : Z) : Prop := 0 < x0 (aget (tr s) k).
(** The triangles in use. *)
Definition used_tris (s : ms) : list tri :=
  filter (fun t => 0 <? x0 t) (map (fun k => aget (tr s) (Z.of_nat k)) (seq 1 (Z.to_nat (nt s)))).
(** A mesh with a table for [ntmax] triangles. *)
Definition tri_mesh (ntmax : Z) (s : ms) : Prop := 1 <= nt s <= ntmax /\ alen (tr s) = ntmax + 1.
(** The same triangles without gap. *)
Definition tri_packed (s s' : ms) : Prop :=
  Permutation (used_tris s) (used_tris s') /\ forall k, 1 <= k <= nt s' -> tri_used s' k.

Lemma used_iff s k : t_ok (aget (tr s) k) = true <-> tri_used s k.
Proof. apply Z.ltb_lt. Qed.

(** ** C82 *)

(** If the last triangle is in use, packing succeeds and leaves no gap. *)
Theorem triangles_packed_partial : forall ntmax s, tri_mesh ntmax s -> tri_used s (nt s) ->
  exists s', paktri ntmax s = Ret (Some s') /\ tri_mesh ntmax s' /\ tri_packed s s'.
Proof.
  intros ntmax s [H L] U. apply used_iff in U. destruct (paktri_ok ntmax s H ltac:(lia) U) as (s' & A & B & C & D & P & _).
  exists s'. split; [exact A|]. split; [split; lia|]. split; [exact P|]. intros k K. apply used_iff, D. exact K.
Qed.

(** Meshes made by the library: from a mesh whose triangles have all been set, by
    deletions and by creations; a triangle created is filled at once with [v]. *)
Inductive tri_reach (ntmax : Z) : ms -> Prop :=
| tr_start s : tri_mesh ntmax s -> (forall k, 1 <= k <= nt s -> tri_used s k) -> tri_reach ntmax s
| tr_del s iel s' : tri_reach ntmax s -> 1 <= iel <= nt s -> del s iel = Ret (Some s') -> tri_reach ntmax s'
| tr_new s c s' v : tri_reach ntmax s -> new_elt s = Ret (c, s') -> c <> 0 -> 0 < x0 v ->
    tri_reach ntmax (mkS (mkArr (alen (tr s')) (upd (aget (tr s')) c v)) (nt s') (fr s')).

Lemma trim_last a : forall f n n', 0 <= n -> trim f a n = Ret n' -> 0 <= n' <= n /\ (n' = 0 \/ t_ok (aget a n') = true).
Proof.
  induction f as [|f IH]; intros n n' H E; [discriminate E|]. cbn [trim] in E.
  unfold rd in E. destruct (inb a n); [|discriminate E]. cbn [bind] in E.
  destruct (t_ok (aget a n)) eqn:T; cbn [negb andb] in E.
  - inversion E; subst n'. split; [lia | right; exact T].
  - destruct (Z.eqb_spec n 0); cbn [negb] in E.
    + inversion E; subst n'. split; [lia | left; assumption].
    + destruct (IH (n - 1) n' ltac:(lia) E) as [A B]. split; [lia | exact B].
Qed.

Lemma reach_last ntmax s : tri_reach ntmax s -> 0 <= nt s <= ntmax /\ alen (tr s) = ntmax + 1 /\ (nt s = 0 \/ t_ok (aget (tr s) (nt s)) = true).
Proof.
  induction 1 as [s [A B] C | s iel s' R IH I E | s c s' v R IH E N V].
  - split; [lia|]. split; [exact B|]. right. apply used_iff, C. lia.
  - destruct IH as (A & B & C). unfold del in E. rewrite rd_ok in E by lia. cbn [bind] in E.
    destruct (t_ok (aget (tr s) iel)); [|discriminate E]. rewrite wr_ok in E by lia. cbn [bind] in E.
    destruct (Z.eqb_spec iel (nt s)) as [X|X].
    + match type of E with context [trim ?f ?a ?n] => destruct (trim f a n) eqn:T end; [|discriminate E]. cbn [bind] in E.
      inversion E; subst s'. cbn [nt tr alen]. destruct (trim_last _ _ (nt s) _ ltac:(lia) T) as [P Q]. split; [lia|]. split; [exact B | exact Q].
    + cbn [bind] in E. inversion E; subst s'. cbn [nt tr alen aget]. split; [lia|]. split; [exact B|].
      destruct C as [C|C]; [left; exact C | right; rewrite upd_other by lia; exact C].
  - destruct IH as (A & B & C). unfold new_elt in E. destruct (Z.eqb_spec (fr s) 0); [inversion E; congruence|].
    unfold rd in E. destruct (inb (tr s) (fr s)) eqn:J; [|discriminate E]. cbn [bind] in E.
    unfold wr in E. rewrite J in E. cbn [bind] in E. unfold inb in J. apply andb_prop in J. destruct J as [J1 J2].
    apply Z.leb_le in J1. apply Z.ltb_lt in J2. inversion E; subst c s'. cbn [nt tr alen aget].
    destruct (Z.ltb_spec (nt s) (fr s)).
    + split; [lia|]. split; [exact B|]. right. rewrite upd_same. apply Z.ltb_lt. exact V.
    + split; [lia|]. split; [exact B|]. destruct C as [C|C]; [left; exact C | right].
      destruct (Z.eq_dec (nt s) (fr s)) as [X|X]; [rewrite X, upd_same; apply Z.ltb_lt; exact V | rewrite !upd_other by lia; exact C].
Qed.

(** In them packing always succeeds and leaves no gap. *)
Theorem triangles_packed_reachable : forall ntmax s, tri_reach ntmax s -> 1 <= nt s ->
  exists s', paktri ntmax s = Ret (Some s') /\ tri_mesh ntmax s' /\ tri_packed s s'.
Proof.
  intros ntmax s R H. destruct (reach_last ntmax s R) as (A & B & [C|C]); [lia|].
  apply triangles_packed_partial; [split; [lia | exact B] | apply used_iff; exact C].
Qed.

Definition ht : tri := mkT 0 0 0.
Definition hole_inside : ms := mkS (mkArr 7 (fun k => if k =? 1 then ht else if k =? 3 then ht else if k =? 4 then ht else if k <=? 5 then mkT k (k + 1) k else ht)) 5 3.

Example hole_inside_mesh : tri_mesh 6 hole_inside /\ tri_used hole_inside (nt hole_inside) /\ nt hole_inside < 6 /\ x2 (aget (tr hole_inside) 6) = 0.
Proof. split; [split; [cbn; lia | reflexivity]|]. split; [reflexivity|]. split; reflexivity. Qed.
Example hole_inside_packed : exists s', paktri 6 hole_inside = Ret (Some s') /\ nt s' = 2 /\ fr s' = 3 /\
  map (fun k => xd (aget (tr s') k)) [1; 2] = [5; 2].
Proof. eexists. split; [vm_compute; reflexivity|]. repeat split. Qed.

Example reachable_with_holes : exists s1 s2 s3, tri_reach 4 s3 /\ nt s3 = 2 /\ ~ tri_used s3 1 /\
  del (mkS (aof ht [mkT 1 2 3; mkT 2 3 4; mkT 3 4 5; ht]) 3 4) 3 = Ret (Some s1) /\ del s1 1 = Ret (Some s2) /\ s2 = s3.
Proof.
  do 3 eexists. split; [|split; [|split; [|split; [vm_compute; reflexivity | split; [vm_compute; reflexivity | reflexivity]]]]].
  - eapply tr_del with (iel := 1); [eapply tr_del with (iel := 3); [apply (tr_start 4 (mkS (aof ht [mkT 1 2 3; mkT 2 3 4; mkT 3 4 5; ht]) 3 4))| |vm_compute; reflexivity]| |vm_compute; reflexivity].
    + split; [cbn; lia | reflexivity].
    + intros k K. cbn [nt] in K. assert (k = 1 \/ k = 2 \/ k = 3) as [-> | [-> | ->]] by lia; reflexivity.
    + cbn; lia.
    + cbn; lia.
  - reflexivity.
  - vm_compute. discriminate.
Qed.

(** A hole at the end is kept; two of them make the construction of the table
    fail. *)
Definition hole_end : ms := mkS (aof ht [mkT 1 2 3; ht; ht]) 2 0.
Definition holes_end : ms := mkS (aof ht [mkT 1 2 3; ht; ht]) 3 0.

Theorem triangles_gap_refuted :
  (exists ntmax s s', tri_mesh ntmax s /\ tri_used s 1 /\ paktri ntmax s = Ret (Some s') /\ ~ tri_packed s s') /\
  (exists ntmax s, tri_mesh ntmax s /\ tri_used s 1 /\ paktri ntmax s = Ret None).
Proof.
  split.
  - exists 3, hole_end. eexists. split; [split; [cbn; lia | reflexivity]|]. split; [reflexivity|]. split; [vm_compute; reflexivity|].
    intros [_ H]. specialize (H 2 ltac:(vm_compute; split; discriminate)). vm_compute in H. discriminate H.
  - exists 3, holes_end. split; [split; [cbn; lia | reflexivity]|]. split; [reflexivity|]. vm_compute. reflexivity.
Qed.

(** ** C83 *)

(** If the table is not full and its last cell ends the list of free cells,
    the triangles created afterwards are the free cells in order, then 0. *)
Theorem triangles_created_partial : forall ntmax s, tri_mesh ntmax s -> tri_used s (nt s) ->
  nt s < ntmax -> x2 (aget (tr s) ntmax) = 0 ->
  exists s', paktri ntmax s = Ret (Some s') /\ forall n, exists l s'', news n s' = Ret (l, s'') /\ length l = n /\
    forall i, (i < n)%nat ->
      nth i l 0 = if nt s' + 1 + Z.of_nat i <=? ntmax then nt s' + 1 + Z.of_nat i else 0.
Proof.
  intros ntmax s [H L] U N Z0. apply used_iff in U. destruct (paktri_ok ntmax s H ltac:(lia) U) as (s' & A & _ & _ & _ & _ & C).
  exists s'. split; [exact A|]. intros n. destruct (news_chain ntmax n s' (nt s' + 1) (C N Z0)) as (s'' & E).
  do 2 eexists. split; [exact E|]. split; [rewrite map_length, seq_length; reflexivity|].
  intros i I. set (g := fun i : nat => if nt s' + 1 + Z.of_nat i <=? ntmax then nt s' + 1 + Z.of_nat i else 0).
  rewrite (nth_indep _ 0 (g 0%nat)) by (rewrite map_length, seq_length; exact I).
  rewrite (map_nth g), seq_nth by exact I. reflexivity.
Qed.

(** When the table is full the next creation reads and writes past its end. *)
Definition full_table : ms := mkS (aof ht [mkT 1 2 3]) 1 0.

Theorem triangle_created_outside_refuted : exists ntmax s s', tri_mesh ntmax s /\ (forall k, 1 <= k <= nt s -> tri_used s k) /\
  new_elt s = Ret (0, s) /\ paktri ntmax s = Ret (Some s') /\ new_elt s' = Stuck.
Proof.
  exists 1, full_table. eexists. split; [split; [cbn; lia | reflexivity]|].
  split; [intros k K; assert (k = 1) as -> by (cbn in K; lia); reflexivity|].
  split; [reflexivity|]. split; [vm_compute; reflexivity|]. vm_compute. reflexivity.
Qed.

(** When a triangle of a full table has been deleted, a triangle in use is
    created again. *)
Definition full_two : ms := mkS (aof ht [mkT 1 2 3; mkT 2 3 4]) 2 0.

Theorem triangle_created_twice_refuted : exists ntmax s s' l s'' k, tri_reach ntmax s /\ tri_mesh ntmax s /\ tri_used s (nt s) /\
  paktri ntmax s = Ret (Some s') /\ 1 <= k <= nt s' /\ tri_used s' k /\ news 2 s' = Ret (l, s'') /\ In k l.
Proof.
  exists 2. do 4 eexists. exists 1. split.
  - eapply tr_del with (s := full_two) (iel := 1); [apply tr_start| |unfold del; reflexivity].
    + split; [cbn; lia | reflexivity].
    + intros k K. cbn [nt full_two] in K. assert (k = 1 \/ k = 2) as [-> | ->] by lia; reflexivity.
    + cbn; lia.
  - split; [split; [cbn; lia | reflexivity]|]. split; [reflexivity|].
    split; [vm_compute; reflexivity|]. split; [vm_compute; split; discriminate|]. split; [reflexivity|].
    split; [vm_compute; reflexivity|]. right. left. reflexivity.
Qed.

Print Assumptions triangles_packed_partial.
Print Assumptions triangles_packed_reachable.
Print Assumptions triangles_gap_refuted.
Print Assumptions triangles_created_partial.
Print Assumptions triangle_created_outside_refuted.
Print Assumptions triangle_created_twice_refuted.
