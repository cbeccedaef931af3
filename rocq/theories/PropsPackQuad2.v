(** Property C80: the quadrilaterals of a packed 2D mesh are those of the mesh,
    numbered without gap. *)
From Coq Require Import ZArith List Lia Bool Permutation.
From Verif Require Import CBase SurfModel Quad2 PackQuad2.
Import ListNotations.
Open Scope Z_scope.

(** ** Specification *)

(** The quadrilateral [k] is in use. *)
Definition in_use (a : arr quad) (k : Z) : Prop := 0 < q_v (aget a k) 0.

(** The quadrilaterals in use among the first [nq]. *)
Definition used_quads (a : arr quad) (nq : Z) : list quad :=
  filter (fun q => 0 <? q_v q 0) (map (fun k => aget a (Z.of_nat k)) (seq 1 (Z.to_nat nq))).

(** What a user expects of the result: the same quadrilaterals, without gap. *)
Definition well_packed (nq : Z) (a : arr quad) (nq' : Z) (a' : arr quad) : Prop :=
  Permutation (used_quads a nq) (used_quads a' nq') /\ forall k, 1 <= k <= nq' -> in_use a' k.

Lemma in_use_iff a k : q_eok (aget a k) = true <-> in_use a k.
Proof. apply Z.ltb_lt. Qed.

(** ** C80 *)

(** Whatever the holes, no quadrilateral is lost, changed or doubled; with the
    assertions only the last one can be a hole. *)
Theorem quads_packed_partial : forall dbg nq a a' nq', 1 <= nq ->
  pack_quadra dbg nq a = Ret (a', nq') ->
  alen a' = alen a /\ 0 <= nq' <= nq /\ Permutation (used_quads a nq) (used_quads a' nq') /\
  (dbg = true -> forall k, 1 <= k < nq' -> in_use a' k).
Proof.
  intros dbg nq a a' nq' P E. destruct (packq_ok dbg _ _ _ _ _ _ E ltac:(lia)) as (A & B & C & D); [intros; lia|].
  split; [exact A|]. split; [lia|]. split; [exact C|]. intros H k K. apply in_use_iff, D; assumption.
Qed.

(** Without assertions the loop ends and stays in the table. *)
Theorem quads_pack_ends : forall nq a, 1 <= nq < alen a -> exists a' nq', pack_quadra false nq a = Ret (a', nq').
Proof.
  intros nq a H. destruct (packq_ends (S (Z.to_nat nq)) 1 nq a) as ([a' nq'] & E); [lia | lia | lia |].
  exists a', nq'. exact E.
Qed.

(** A mesh without holes is kept. *)
Theorem quads_without_holes_kept : forall dbg nq a, 1 <= nq < alen a ->
  (forall k, 1 <= k <= nq -> in_use a k) -> pack_quadra dbg nq a = Ret (a, nq) /\ well_packed nq a nq a.
Proof.
  intros dbg nq a H U. split.
  - apply packq_full; [lia | lia | lia |]. intros j J. apply in_use_iff, U. exact J.
  - split; [reflexivity | exact U].
Qed.

(** A hole in front of the last quadrilaterals is filled. *)
Definition qz (n : Z) : quad := mkQd (fun i => if n =? 0 then 0 else n + i).
Definition hole_first : arr quad := aof (qz 0) [qz 0; qz 1; qz 5; qz 9].
Example hole_first_packed : exists a', pack_quadra true 4 hole_first = Ret (a', 3) /\
  map (fun k => q_v (aget a' k) 0) [1; 2; 3] = [9; 1; 5].
Proof. eexists. split; [vm_compute; reflexivity | reflexivity]. Qed.
Example no_holes_case : forall k, 1 <= k <= 2 -> in_use (aof (qz 0) [qz 1; qz 5]) k.
Proof. intros k K. assert (k = 1 \/ k = 2) as [-> | ->] by lia; reflexivity. Qed.

(** A hole at the end is kept and counted, with and without assertions. *)
Definition hole_last : arr quad := aof (qz 0) [qz 1; qz 0].

Theorem quads_gap_refuted : exists nq a, 1 <= nq < alen a /\ forall dbg, exists a' nq',
  pack_quadra dbg nq a = Ret (a', nq') /\ ~ well_packed nq a nq' a' /\ nq' <> Z.of_nat (length (used_quads a nq)).
Proof.
  exists 2, hole_last. split; [vm_compute; split; [discriminate | reflexivity]|].
  intros dbg. exists hole_last, 2. split; [destruct dbg; vm_compute; reflexivity|]. split; [|vm_compute; discriminate].
  intros [_ H]. specialize (H 2 ltac:(lia)). vm_compute in H. discriminate H.
Qed.

(** Two holes at the end stop a program with assertions; without them a hole is
    kept. *)
Definition holes_last : arr quad := aof (qz 0) [qz 1; qz 0; qz 0].

Theorem quads_assert_refuted : exists nq a, 1 <= nq < alen a /\ in_use a 1 /\ pack_quadra true nq a = Stuck /\
  exists a' nq', pack_quadra false nq a = Ret (a', nq') /\ ~ well_packed nq a nq' a'.
Proof.
  exists 3, holes_last. split; [vm_compute; split; [discriminate | reflexivity]|]. split; [reflexivity|].
  split; [vm_compute; reflexivity|]. do 2 eexists. split; [vm_compute; reflexivity|].
  intros [_ H]. specialize (H 2 ltac:(lia)). vm_compute in H. discriminate H.
Qed.

Print Assumptions quads_packed_partial.
Print Assumptions quads_pack_ends.
Print Assumptions quads_without_holes_kept.
Print Assumptions quads_gap_refuted.
Print Assumptions quads_assert_refuted.
