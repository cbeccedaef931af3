(** Properties C01, C02, C03: the hash tables are finite maps. *)
From Coq Require Import ZArith List Lia.
From Verif Require Import CBase HashModel HashSpec HashCorrect.
Import ListNotations.
Open Scope Z_scope.

(** C01. Every history of insert / update / tag / get / pop calls on a fresh edge
    table returns exactly what a finite map keyed by unordered pairs returns; no
    call is undefined.  A refused growth is reported by 0 and only happens to an
    insertion of a missing edge. *)
Theorem C01_edge_table_is_map : forall siz max ops,
  0 <= siz <= max -> Forall eop_wf ops ->
  exists outs, (h <- hashNew siz max ;; hist _ _ estep h ops) = Ret outs
               /\ econforms emap0 ops outs.
Proof.
  intros siz max ops H W. destruct (new_rep siz max H) as [h [E [R _]]]. rewrite E.
  exact (ehist_ok ops h emap0 R W).
Qed.
Print Assumptions C01_edge_table_is_map.

(** With enough memory the outputs are those of the map, all of them. *)
Theorem C01_edge_table_outputs : forall siz max ops,
  0 <= siz <= max -> Forall eop_wf ops -> Forall egranted ops ->
  (h <- hashNew siz max ;; hist _ _ estep h ops) = Ret (espec_outs emap0 ops).
Proof.
  intros siz max ops H W G. destruct (C01_edge_table_is_map siz max ops H W) as [outs [E C]].
  rewrite E. f_equal. exact (econforms_granted ops emap0 outs G C).
Qed.
Print Assumptions C01_edge_table_outputs.

(** Non-trivial instance: a table of 2 buckets, collisions, growth, removal and reuse. *)
Definition ops1 : list eop :=
  [EIns 1 2 10 1; EIns 3 4 11 1; EIns 5 6 12 1; EIns 2 1 99 1; EIns 7 8 13 2; EIns 4 9 14 1; EIns 1 9 15 3;
   EGet 2 1; EGet 9 4; EPop 4 3; EGet 3 4; EGet 8 7; EUpd 6 5 50; EGet 5 6; EPop 1 2; EIns 1 2 7 1; EGet 1 2;
   ETag 5 6 8 1; ETag 20 21 4 1; EGet 21 20; EPop 30 31].
Example C01_case :
  (h <- hashNew 1 1 ;; hist _ _ estep h ops1)
  = Ret [2; 2; 2; 1; 2; 2; 2; 10; 14; 1; 0; 13; 1; 50; 1; 2; 7; 58; 4; 4; 0].
Proof. vm_compute. reflexivity. Qed.
Example C01_case_hyps : 0 <= 1 <= 1 /\ Forall eop_wf ops1 /\ Forall egranted ops1.
Proof. repeat split; try lia; unfold ops1; repeat constructor; simpl; lia. Qed.
(** A refused growth. *)
Example C01_case_refused :
  (h <- hashNew 0 0 ;; hist _ _ estep h [EIns 1 2 5 1; EGet 1 2; EIns 1 3 6 0; EGet 1 2]) = Ret [2; 5; 0].
Proof. vm_compute. reflexivity. Qed.

(** C02. Face table. *)
Theorem C02_face_table_is_map : forall siz max ops,
  0 <= siz <= max -> Forall fop_wf ops ->
  exists outs, (h <- hashNew siz max ;; hist _ _ fstep h ops) = Ret outs
               /\ fconforms fmap0 ops outs.
Proof.
  intros siz max ops H W. destruct (new_frep siz max H) as [h [E R]]. rewrite E.
  exact (fhist_ok ops h fmap0 R W).
Qed.
Print Assumptions C02_face_table_is_map.

Example C02_case :
  (h <- hashNew 1 1 ;; hist _ _ fstep h
     [FIns 1 2 3 8 1; FIns 3 1 2 9 1; FIns 1 4 3 10 1; FIns 1 5 3 11 1; FIns 2 6 9 12 4; FIns 1 2 4 13 1;
      FGet 9 2 6; FGet 4 3 1; FGet 2 2 2])
  = Ret [-1; 8; -1; -1; -1; -1; 12; 10; 0].
Proof. vm_compute. reflexivity. Qed.

(** C03. Geometric edge table with reference and tag. *)
Theorem C03_geom_table_is_map : forall siz max ops,
  0 <= siz <= max -> Forall gop_wf ops ->
  exists outs, (h <- hashNew siz max ;; hist _ _ gstep h ops) = Ret outs
               /\ gconforms gmap0 ops outs.
Proof.
  intros siz max ops H W. destruct (new_rep siz max H) as [h [E [_ R]]]. rewrite E.
  exact (ghist_ok ops h gmap0 R W).
Qed.
Print Assumptions C03_geom_table_is_map.

Example C03_case :
  (h <- hashNew 1 1 ;; hist _ _ gstep h
     [GIns 1 2 5 1 1; GIns 3 4 6 2 1; GIns 5 6 7 4 1; GIns 7 8 0 4 2; GIns 2 1 9 9 1; GTag 4 3 0 8; GTag 5 6 70 1;
      GGet 1 2; GGet 3 4; GGet 6 5; GPop 2 1; GGet 1 2; GGet 8 7; GTag 1 2 3 3])
  = Ret [(1,0,0);(1,0,0);(1,0,0);(1,0,0);(1,0,0);(1,0,0);(1,0,0);(1,5,1);(1,6,10);(1,70,5);(1,5,1);(0,0,0);(1,0,4);(0,0,0)].
Proof. vm_compute. reflexivity. Qed.

(** The precondition [siz <= max] cannot be dropped: a table requested with more
    buckets than slots loses entries or leaves its array. *)
Example C01_siz_max_needed :
  exists ops, Forall eop_wf ops /\ Forall egranted ops /\
   (h <- hashNew 2 0 ;; hist _ _ estep h ops) <> Ret (espec_outs emap0 ops).
Proof.
  exists [EIns 1 2 10 1; EIns 1 5 11 1; EGet 1 2; EGet 1 5].
  split; [repeat constructor; simpl; lia|]. split; [repeat constructor; simpl; lia|].
  vm_compute. discriminate.
Qed.
