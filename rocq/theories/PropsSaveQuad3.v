(** Property C81: the quadrilaterals saved by Mmg3d are read again as they were. *)
From Coq Require Import ZArith List Lia Bool.
From Verif Require Import CBase SurfModel Tria2 PropsTria2 Quad2 SaveQuad2 PropsSaveQuad2 SaveQuad3.
Import ListNotations.
Open Scope Z_scope.

Lemma save_quads3_ok nq a tg rf tmp : saved_mesh nq a tg rf tmp -> save_quads3 nq a tg rf tmp =
  Ret (Word WQuads :: Num nq :: flat_map (nums a rf tmp) (rng (Z.to_nat nq)) ++
       (match reqs tg (Z.to_nat nq) with [] => []
        | _ => Word WRequired :: Num (Z.of_nat (length (reqs tg (Z.to_nat nq)))) :: map Num (reqs tg (Z.to_nat nq)) end)
       ++ [Word WEnd]).
Proof.
  intros M. pose proof (sm_some _ _ _ _ _ M). unfold save_quads3. rewrite (count_saved_ok _ _ _ _ _ M). cbn [bind].
  destruct (Z.eqb_spec nq 0); [lia|]. rewrite (write_quads_ok _ _ _ _ _ M). cbn [bind].
  destruct (Z.eqb_spec (Z.of_nat (length (reqs tg (Z.to_nat nq)))) 0) as [Z0|Z0].
  - destruct (reqs tg (Z.to_nat nq)); [reflexivity | cbn [length] in Z0; lia].
  - rewrite (write_required_ok _ _ _ _ _ M). cbn [bind]. destruct (reqs tg (Z.to_nat nq)); [cbn in Z0; lia | reflexivity].
Qed.

(** A mesh without holes is read again as it was. *)
Theorem quads3_read_back : forall nq a tg rf tmp, saved_mesh nq a tg rf tmp ->
  exists file r, save_quads3 nq a tg rf tmp = Ret file /\ load_quads file = Ret (Some r) /\ read_back nq a tg rf tmp r.
Proof.
  intros nq a tg rf tmp M. pose proof (sm_some _ _ _ _ _ M) as P.
  destruct (required_read_back nq (reqs tg (Z.to_nat nq)) [Word WEnd] (acalloc (nq + 1) [0; 0; 0; 0])) as (tg' & E & F);
    [exact P | reflexivity | reflexivity | intros k X; apply (reqs_in tg nq k P) in X; tauto|].
  pose proof (fun k => reqs_in tg nq k P) as B.
  exists (Word WQuads :: Num nq :: flat_map (nums a rf tmp) (rng (Z.to_nat nq)) ++
       (match reqs tg (Z.to_nat nq) with [] => []
        | _ => Word WRequired :: Num (Z.of_nat (length (reqs tg (Z.to_nat nq)))) :: map Num (reqs tg (Z.to_nat nq)) end)
       ++ [Word WEnd]), (map (quad_back a rf tmp) (rng (Z.to_nat nq)), tg').
  split; [apply (save_quads3_ok _ _ _ _ _ M)|]. split.
  - unfold load_quads. cbn [scan app]. rewrite scan_quads.
    destruct (reqs tg (Z.to_nat nq)) as [|z l] eqn:R.
    + cbn [scan app p_nq p_quads p_nr p_req]. rewrite <- (rng_length (Z.to_nat nq)) at 1. rewrite read_quads_ok.
      destruct (Z.eqb_spec nq 0); [lia|]. cbn in E. cbn. inversion E. reflexivity.
    + cbn [scan app p_nq p_quads p_nr p_req]. rewrite scan_nums. cbn [scan p_nq p_quads p_nr p_req].
      rewrite <- (rng_length (Z.to_nat nq)) at 1. rewrite read_quads_ok. destruct (Z.eqb_spec nq 0); [lia|].
      rewrite Nat2Z.id, E. reflexivity.
  - split; [|split]; cbn [fst snd].
    + rewrite map_length, rng_length. lia.
    + intros k Hk. apply map_nth_error. apply rng_nth. lia.
    + intros k Hk. rewrite (F k Hk), B. tauto.
Qed.

(** Cases. *)
Example one_required_file3 : save_quads3 2 two_quads one_required two_refs same_numbers =
  Ret ([Word WQuads; Num 2; Num 1; Num 2; Num 3; Num 4; Num 7; Num 3; Num 4; Num 5; Num 6; Num (-8);
        Word WRequired; Num 1; Num 2; Word WEnd]).
Proof. vm_compute. reflexivity. Qed.

(** Numbers 1, 3 and 4 are in use and 3 is required. *)
Definition with_hole : arr quad :=
  aof (mkQd (fun _ => 0)) [mkQd (fun i => i + 1); mkQd (fun _ => 0); mkQd (fun i => i + 2); mkQd (fun i => i + 3)].
Definition third_required : arr (list Z) := aof [0; 0; 0; 0] [[0; 0; 0; 0]; [0; 0; 0; 0]; [4; 4; 4; 4]; [0; 0; 0; 0]].
Definition four_refs : arr Z := aof 0 [1; 0; 3; 4].

(** With holes it is false: the required ones are listed by their place in the
    table and not in the file, and another quadrilateral is read as required. *)
Theorem quads3_holes_refuted : exists nq a tg rf tmp file qs tg' k l n m,
  save_quads3 nq a tg rf tmp = Ret file /\ load_quads file = Ret (Some (qs, tg')) /\
  1 <= k <= nq /\ 1 <= l <= nq /\ 0 < q_v (aget a k) 0 /\ 0 < q_v (aget a l) 0 /\
  nth_error qs (Z.to_nat (n - 1)) = Some (quad_back a rf tmp k) /\ req_quad tg k /\ ~ req_quad tg' n /\
  nth_error qs (Z.to_nat (m - 1)) = Some (quad_back a rf tmp l) /\ ~ req_quad tg l /\ req_quad tg' m.
Proof.
  exists 4, with_hole, third_required, four_refs, same_numbers. do 3 eexists. exists 3, 4, 2, 3.
  split; [vm_compute; reflexivity|]. split; [vm_compute; reflexivity|].
  split; [lia|]. split; [lia|]. split; [reflexivity|]. split; [reflexivity|]. split; [reflexivity|].
  split; [apply req4_iff; reflexivity|]. split; [rewrite <- req4_iff; discriminate|].
  split; [reflexivity|]. split; [rewrite <- req4_iff; discriminate | apply req4_iff; reflexivity].
Qed.

Print Assumptions quads3_read_back.
Print Assumptions quads3_holes_refuted.
