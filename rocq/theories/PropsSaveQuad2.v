(** Property C79: the quadrilaterals saved by Mmg2d are read again as they were. *)
From Coq Require Import ZArith List Lia Bool.
From Verif Require Import CBase SurfModel Tria2 PropsTria2 Quad2 SaveQuad2.
Import ListNotations.
Open Scope Z_scope.

(** ** Specification *)

(** The four sides of [k] are required. *)
Definition req_quad (tg : arr (list Z)) (k : Z) : Prop := forall t, In t (aget tg k) -> b_req t = true.

(** A mesh of [nq] quadrilaterals without holes, as packed by the library; the
    unused quadrilateral 0 is not required. *)
Record saved_mesh (nq : Z) (a : arr quad) (tg : arr (list Z)) (rf tmp : arr Z) : Prop := {
  sm_some : 0 < nq;
  sm_a : nq < alen a;
  sm_tg : nq < alen tg;
  sm_rf : nq < alen rf;
  sm_v : forall k i, 1 <= k <= nq -> 0 <= i < 4 -> 0 < q_v (aget a k) i < alen tmp;
  sm_0 : ~ req_quad tg 0
}.

(** The quadrilateral [k] as it should be read: numbers of the vertices in the
    file and reference. *)
Definition quad_back (a : arr quad) (rf tmp : arr Z) (k : Z) : Z * Z * Z * Z * Z :=
  (aget tmp (q_v (aget a k) 0), aget tmp (q_v (aget a k) 1), aget tmp (q_v (aget a k) 2), aget tmp (q_v (aget a k) 3),
   Z.abs (aget rf k)).

(** What a reader should find: the same quadrilaterals in the same order, and
    the same ones required. *)
Definition read_back (nq : Z) (a : arr quad) (tg : arr (list Z)) (rf tmp : arr Z)
  (r : list (Z * Z * Z * Z * Z) * arr (list Z)) : Prop :=
  Z.of_nat (length (fst r)) = nq /\
  (forall k, 1 <= k <= nq -> nth_error (fst r) (Z.to_nat (k - 1)) = Some (quad_back a rf tmp k)) /\
  (forall k, 1 <= k <= nq -> (req_quad (snd r) k <-> req_quad tg k)).

(** ** Correctness *)

Lemma req4_iff tg k : req4 (aget tg k) = true <-> req_quad tg k.
Proof.
  unfold req4, req_quad. rewrite forallb_forall. unfold b_req.
  split; intros H t X; specialize (H t X); [rewrite <- (tst_bit t 2) by lia | change G_REQ with (2 ^ 2); rewrite (tst_bit t 2) by lia]; exact H.
Qed.

Definition rng (n : nat) : list Z := map Z.of_nat (seq 1 n).
Lemma rng_S k : 1 <= k -> rng (Z.to_nat (k + 1 - 1)) = rng (Z.to_nat (k - 1)) ++ [k].
Proof.
  intros H. unfold rng. replace (k + 1 - 1) with (Z.succ (k - 1)) by lia. rewrite Z2Nat.inj_succ by lia.
  rewrite seq_S, map_app. cbn [map]. f_equal. f_equal. lia.
Qed.
Lemma rng_in n k : In k (rng n) <-> 1 <= k <= Z.of_nat n.
Proof.
  unfold rng. rewrite in_map_iff. split.
  - intros (m & <- & H). apply in_seq in H. lia.
  - intros H. exists (Z.to_nat k). rewrite in_seq. lia.
Qed.

Definition reqs (tg : arr (list Z)) (n : nat) : list Z := filter (fun k => req4 (aget tg k)) (rng n).
Lemma reqs_S tg k : 1 <= k ->
  reqs tg (Z.to_nat (k + 1 - 1)) = reqs tg (Z.to_nat (k - 1)) ++ (if req4 (aget tg k) then [k] else []).
Proof. intros H. unfold reqs. rewrite rng_S by exact H. rewrite filter_app. reflexivity. Qed.

(** Numbers written for [k]. *)
Definition nums (a : arr quad) (rf tmp : arr Z) (k : Z) : list tok :=
  [Num (aget tmp (q_v (aget a k) 0)); Num (aget tmp (q_v (aget a k) 1)); Num (aget tmp (q_v (aget a k) 2));
   Num (aget tmp (q_v (aget a k) 3)); Num (aget rf k)].

Section Saved.
Variables (nq : Z) (a : arr quad) (tg : arr (list Z)) (rf tmp : arr Z).
Hypothesis M : saved_mesh nq a tg rf tmp.

Let N := Z.to_nat nq.

Lemma count_saved_ok : count_saved nq a tg = Ret (nq, Z.of_nat (length (reqs tg N))).
Proof.
  destruct M as [M0 M1 M2 M3 M4 M5]. unfold count_saved.
  match goal with |- for_range 1 nq ?f ?s = _ =>
    destruct (@for_range_inv (Z * Z) (fun k st => st = (k - 1, Z.of_nat (length (reqs tg (Z.to_nat (k - 1)))))) f 1 nq s) as (st & E & I) end.
  - lia.
  - reflexivity.
  - intros k st Hk ->. rewrite rd_ok by lia. cbn [bind]. destruct (M4 k 0 Hk ltac:(lia)) as [V _].
    apply Z.ltb_lt in V. rewrite V. rewrite rd_ok by lia. cbn [bind]. eexists. split; [reflexivity|].
    rewrite reqs_S, app_length by lia. f_equal; [lia|]. destruct (req4 (aget tg k)); cbn [length]; lia.
  - rewrite E, I. unfold N. replace (nq + 1 - 1) with nq by lia. reflexivity.
Qed.

Lemma write_quads_ok r :
  write_quads nq a tg rf tmp r = Ret (flat_map (nums a rf tmp) (rng N), r + Z.of_nat (length (reqs tg N))).
Proof.
  destruct M as [M0 M1 M2 M3 M4 M5]. unfold write_quads.
  match goal with |- for_range 1 nq ?f ?s = _ =>
    destruct (@for_range_inv (list tok * Z) (fun k st => st = (flat_map (nums a rf tmp) (rng (Z.to_nat (k - 1))), r + Z.of_nat (length (reqs tg (Z.to_nat (k - 1)))))) f 1 nq s) as (st & E & I) end.
  - lia.
  - cbn. f_equal. lia.
  - intros k st Hk ->. rewrite rd_ok by lia. cbn [bind].
    pose proof (M4 k 0 Hk ltac:(lia)) as V0. pose proof (M4 k 1 Hk ltac:(lia)) as V1.
    pose proof (M4 k 2 Hk ltac:(lia)) as V2. pose proof (M4 k 3 Hk ltac:(lia)) as V3.
    destruct (Z.ltb_spec 0 (q_v (aget a k) 0)); [|lia].
    do 6 (rewrite rd_ok by lia; cbn [bind]). eexists. split; [reflexivity|].
    rewrite reqs_S, app_length, rng_S, flat_map_app by lia. cbn [flat_map]. rewrite app_nil_r. f_equal.
    destruct (req4 (aget tg k)); cbn [length]; lia.
  - rewrite E, I. unfold N. replace (nq + 1 - 1) with nq by lia. reflexivity.
Qed.

Lemma write_required_ok : write_required nq tg = Ret (map Num (reqs tg N)).
Proof.
  destruct M as [M0 M1 M2 M3 M4 M5]. unfold write_required.
  match goal with |- for_range 0 nq ?f ?s = _ =>
    destruct (@for_range_inv (list tok) (fun k st => st = map Num (reqs tg (Z.to_nat (k - 1)))) f 0 nq s) as (st & E & I) end.
  - lia.
  - reflexivity.
  - intros k st Hk ->. rewrite rd_ok by lia. cbn [bind]. eexists. split; [reflexivity|].
    destruct (Z.eq_dec k 0) as [->|NZ].
    + destruct (req4 (aget tg 0)) eqn:R; [apply req4_iff in R; contradiction | reflexivity].
    + rewrite reqs_S, map_app by lia. destruct (req4 (aget tg k)); [reflexivity | rewrite app_nil_r; reflexivity].
  - rewrite E, I. unfold N. replace (nq + 1 - 1) with nq by lia. reflexivity.
Qed.

Lemma save_quads_ok : save_quads nq a tg rf tmp =
  Ret (Word WQuads :: Num nq :: flat_map (nums a rf tmp) (rng N) ++
       (match reqs tg N with [] => [] | _ => Word WRequired :: Num (2 * Z.of_nat (length (reqs tg N))) :: map Num (reqs tg N) end)
       ++ [Word WEnd]).
Proof.
  pose proof (sm_some _ _ _ _ _ M). unfold save_quads. rewrite count_saved_ok. cbn [bind].
  destruct (Z.eqb_spec nq 0); [lia|]. rewrite write_quads_ok. cbn [bind].
  replace (Z.of_nat (length (reqs tg N)) + Z.of_nat (length (reqs tg N))) with (2 * Z.of_nat (length (reqs tg N))) by lia.
  destruct (Z.eqb_spec (2 * Z.of_nat (length (reqs tg N))) 0) as [Z0|Z0].
  - destruct (reqs tg N); [reflexivity | cbn [length] in Z0; lia].
  - rewrite write_required_ok. cbn [bind]. destruct (reqs tg N); [cbn in Z0; lia | reflexivity].
Qed.

End Saved.

Lemma scan_nums l r s : scan (map Num l ++ r) s = scan r s.
Proof. induction l; [reflexivity|]. cbn. exact IHl. Qed.
Lemma scan_quads a rf tmp l r s : scan (flat_map (nums a rf tmp) l ++ r) s = scan r s.
Proof. induction l; [reflexivity|]. cbn. exact IHl. Qed.

Lemma read_quads_ok a rf tmp r : forall l,
  read_quads (length l) (flat_map (nums a rf tmp) l ++ r) = Some (map (quad_back a rf tmp) l).
Proof.
  induction l; [reflexivity|]. cbn. rewrite IHl. unfold quad_back. do 2 f_equal. f_equal.
  destruct (Z.ltb_spec (aget rf a0) 0); lia.
Qed.

(** Too few numbers. *)
Lemma read_required_short nq : forall l n tg, (length l < n)%nat -> alen tg = nq + 1 ->
  (forall k, In k l -> 1 <= k <= nq) -> read_required nq n (map Num l ++ [Word WEnd]) tg = Ret None.
Proof.
  induction l; intros n tg H L X; (destruct n; [cbn in H; lia|]); [reflexivity|]. cbn [map app read_required].
  pose proof (X a (or_introl eq_refl)). destruct (Z.ltb_spec nq a); [lia|].
  rewrite rd_ok by lia. cbn [bind]. rewrite wr_ok by lia. cbn [bind]. apply IHl; [cbn in H; lia | exact L |].
  intros k Y. apply X. right. exact Y.
Qed.

Lemma rng_length n : length (rng n) = n.
Proof. unfold rng. rewrite map_length, seq_length. reflexivity. Qed.
Lemma rng_nth n k : 1 <= k <= Z.of_nat n -> nth_error (rng n) (Z.to_nat (k - 1)) = Some k.
Proof.
  intros H. unfold rng.
  assert (E : nth_error (seq 1 n) (Z.to_nat (k - 1)) = Some (Z.to_nat k)).
  { rewrite (nth_error_nth' _ 0%nat) by (rewrite seq_length; lia). rewrite seq_nth by lia. f_equal. lia. }
  rewrite (map_nth_error _ _ _ E). f_equal. lia.
Qed.

Lemma reqs_in tg nq k : 0 < nq -> In k (reqs tg (Z.to_nat nq)) <-> 1 <= k <= nq /\ req_quad tg k.
Proof. intros H. unfold reqs. rewrite filter_In, rng_in, req4_iff, Z2Nat.id by lia. tauto. Qed.

(** ** C79 *)

(** The file announces twice as many required quadrilaterals as it lists. *)
Theorem required_header_doubled : forall nq a tg rf tmp,
  saved_mesh nq a tg rf tmp -> (exists k, 1 <= k <= nq /\ req_quad tg k) ->
  exists front ids,
    save_quads nq a tg rf tmp = Ret (front ++ Word WRequired :: Num (2 * Z.of_nat (length ids)) :: map Num ids ++ [Word WEnd]) /\
    NoDup ids /\ (forall k, In k ids <-> 1 <= k <= nq /\ req_quad tg k).
Proof.
  intros nq a tg rf tmp M (k0 & K). pose proof (sm_some _ _ _ _ _ M) as P.
  exists (Word WQuads :: Num nq :: flat_map (nums a rf tmp) (rng (Z.to_nat nq))), (reqs tg (Z.to_nat nq)).
  split; [|split].
  - rewrite (save_quads_ok _ _ _ _ _ M). apply (reqs_in tg nq k0 P) in K.
    destruct (reqs tg (Z.to_nat nq)) eqn:E; [destruct K|]. reflexivity.
  - apply NoDup_filter. unfold rng. apply FinFun.Injective_map_NoDup; [intros x y; apply Nat2Z.inj | apply seq_NoDup].
  - intros k. apply reqs_in. exact P.
Qed.

(** No mesh with a required quadrilateral can be read again: the reader fails. *)
Theorem required_unreadable : forall nq a tg rf tmp,
  saved_mesh nq a tg rf tmp -> (exists k, 1 <= k <= nq /\ req_quad tg k) ->
  exists file, save_quads nq a tg rf tmp = Ret file /\ load_quads file = Ret None.
Proof.
  intros nq a tg rf tmp M (k0 & K). pose proof (sm_some _ _ _ _ _ M) as P.
  eexists. split; [apply (save_quads_ok _ _ _ _ _ M)|].
  pose proof (fun k => proj1 (reqs_in tg nq k P)) as B.
  apply (reqs_in tg nq k0 P) in K. destruct (reqs tg (Z.to_nat nq)) as [|z l] eqn:E; [destruct K|]. clear K E.
  unfold load_quads. cbn [scan app]. rewrite scan_quads.
  cbn [scan app p_nq p_quads p_nr p_req]. rewrite scan_nums. cbn [scan p_nq p_quads p_nr p_req].
  rewrite <- (rng_length (Z.to_nat nq)) at 1. rewrite read_quads_ok. destruct (Z.eqb_spec nq 0); [lia|].
  rewrite read_required_short; [reflexivity | cbn [length]; lia | reflexivity |].
  intros k X. apply B in X. tauto.
Qed.

(** Missing: the meshes with required quadrilaterals, for which it is false.
    Without them the quadrilaterals are read again as they were. *)
Theorem quads_read_back_partial : forall nq a tg rf tmp,
  saved_mesh nq a tg rf tmp -> (forall k, 1 <= k <= nq -> ~ req_quad tg k) ->
  exists file r, save_quads nq a tg rf tmp = Ret file /\ load_quads file = Ret (Some r) /\ read_back nq a tg rf tmp r.
Proof.
  intros nq a tg rf tmp M NR. pose proof (sm_some _ _ _ _ _ M) as P.
  do 2 eexists. split; [apply (save_quads_ok _ _ _ _ _ M)|].
  assert (reqs tg (Z.to_nat nq) = []) as ->.
  { destruct (reqs tg (Z.to_nat nq)) eqn:E; [reflexivity|].
    destruct (proj1 (reqs_in tg nq z P)) as [A B]; [rewrite E; left; reflexivity|]. destruct (NR z A B). }
  unfold load_quads. cbn [scan app]. rewrite scan_quads. cbn [scan p_nq p_quads p_nr p_req].
  rewrite <- (rng_length (Z.to_nat nq)) at 1. rewrite read_quads_ok. destruct (Z.eqb_spec nq 0); [lia|].
  split; [reflexivity|]. split; [|split]; cbn [fst snd].
  - rewrite map_length, rng_length. lia.
  - intros k Hk. apply map_nth_error. apply rng_nth. lia.
  - intros k Hk. split; [|intros X; destruct (NR k Hk X)]. intros X. specialize (X 0 (or_introl eq_refl)). discriminate X.
Qed.

(** The reader is right: from a file with the true number it gives back
    exactly the quadrilaterals listed. *)
Theorem required_read_back : forall nq ids rest tg, 0 < nq -> alen tg = nq + 1 ->
  (forall k, 1 <= k <= nq -> aget tg k = [0; 0; 0; 0]) -> (forall k, In k ids -> 1 <= k <= nq) ->
  exists tg', read_required nq (length ids) (map Num ids ++ rest) tg = Ret (Some tg') /\
    forall k, 1 <= k <= nq -> (req_quad tg' k <-> In k ids).
Proof.
  intros nq ids rest tg P L Z0 B.
  assert (G : forall ids tg (D : Z -> Prop), alen tg = nq + 1 -> (forall k, In k ids -> 1 <= k <= nq) ->
    (forall k, 1 <= k <= nq -> (D k /\ aget tg k = [4; 4; 4; 4]) \/ (~ D k /\ aget tg k = [0; 0; 0; 0])) ->
    exists tg', read_required nq (length ids) (map Num ids ++ rest) tg = Ret (Some tg') /\
      forall k, 1 <= k <= nq -> (req_quad tg' k <-> D k \/ In k ids)).
  { clear. induction ids as [|z l IH]; intros tg D L B C.
    - exists tg. split; [reflexivity|]. intros k Hk. unfold req_quad. destruct (C k Hk) as [[d ->]|[d ->]].
      + split; [left; exact d|]. intros _ t T. cbn in T. destruct T as [<-|[<-|[<-|[<-|[]]]]]; reflexivity.
      + split; [|intros [X|[]]; contradiction]. intros X. specialize (X 0 (or_introl eq_refl)). discriminate X.
    - cbn [length map app read_required]. pose proof (B z (or_introl eq_refl)) as Bz. destruct (Z.ltb_spec nq z); [lia|].
      rewrite rd_ok by lia. cbn [bind]. rewrite wr_ok by lia. cbn [bind].
      destruct (IH (mkArr (alen tg) (upd (aget tg) z (map (fun x => Z.lor x G_REQ) (aget tg z)))) (fun k => D k \/ k = z)) as (tg' & E & F).
      + exact L.
      + intros k X. apply B. right. exact X.
      + intros k Hk. cbn [aget]. destruct (Z.eq_dec k z) as [->|NE].
        * rewrite upd_same. left. split; [right; reflexivity|]. destruct (C z Hk) as [[_ ->]|[_ ->]]; reflexivity.
        * rewrite upd_other by exact NE. destruct (C k Hk) as [[d e]|[d e]]; [left; tauto | right; tauto].
      + exists tg'. split; [exact E|]. intros k Hk. rewrite (F k Hk). cbn [In]. intuition congruence. }
  destruct (G ids tg (fun _ => False) L B) as (tg' & E & F).
  - intros k Hk. right. split; [tauto | apply Z0; exact Hk].
  - exists tg'. split; [exact E|]. intros k Hk. rewrite (F k Hk). tauto.
Qed.

(** ** Cases *)

Definition two_quads : arr quad := aof (mkQd (fun _ => 0)) [mkQd (fun i => i + 1); mkQd (fun i => i + 3)].
Definition one_required : arr (list Z) := aof [0; 0; 0; 0] [[0; 4; 4; 4]; [4; 4; 4; 4]].
Definition none_required : arr (list Z) := aof [0; 0; 0; 0] [[0; 4; 4; 4]; [0; 0; 0; 0]].
Definition two_refs : arr Z := aof 0 [7; -8].
Definition same_numbers : arr Z := mkArr 7 (fun i => i).

Lemma two_quads_mesh tg : alen tg = 3 -> ~ req_quad tg 0 -> saved_mesh 2 two_quads tg two_refs same_numbers.
Proof.
  intros L R. split; try exact R; try rewrite L; try reflexivity.
  intros k i Hk Hi. assert (k = 1 \/ k = 2) as [-> | ->] by lia; assert (i = 0 \/ i = 1 \/ i = 2 \/ i = 3) as [-> | [-> | [-> | ->]]] by lia; split; vm_compute; reflexivity.
Qed.

Example one_required_mesh : saved_mesh 2 two_quads one_required two_refs same_numbers /\ exists k, 1 <= k <= 2 /\ req_quad one_required k.
Proof.
  split; [apply two_quads_mesh; [reflexivity|]; intros X; specialize (X 0 (or_introl eq_refl)); discriminate X|].
  exists 2. split; [lia|]. apply req4_iff. reflexivity.
Qed.
Example one_required_file : save_quads 2 two_quads one_required two_refs same_numbers =
  Ret ([Word WQuads; Num 2; Num 1; Num 2; Num 3; Num 4; Num 7; Num 3; Num 4; Num 5; Num 6; Num (-8);
        Word WRequired; Num 2; Num 2; Word WEnd]).
Proof. vm_compute. reflexivity. Qed.
Example none_required_mesh : saved_mesh 2 two_quads none_required two_refs same_numbers /\ forall k, 1 <= k <= 2 -> ~ req_quad none_required k.
Proof.
  split; [apply two_quads_mesh; [reflexivity|]; intros X; specialize (X 0 (or_introl eq_refl)); discriminate X|].
  intros k Hk X. apply req4_iff in X. assert (k = 1 \/ k = 2) as [-> | ->] by lia; discriminate X.
Qed.
Example true_number : exists tg', load_quads [Word WQuads; Num 2; Num 1; Num 2; Num 3; Num 4; Num 7; Num 3; Num 4; Num 5; Num 6; Num (-8);
        Word WRequired; Num 1; Num 2; Word WEnd] = Ret (Some ([(1, 2, 3, 4, 7); (3, 4, 5, 6, 8)], tg')) /\
  aget tg' 1 = [0; 0; 0; 0] /\ aget tg' 2 = [4; 4; 4; 4].
Proof. eexists. split; [vm_compute; reflexivity|]. split; reflexivity. Qed.

(** False as stated. *)
Theorem save_load_quads_refuted : exists nq a tg rf tmp file,
  saved_mesh nq a tg rf tmp /\ save_quads nq a tg rf tmp = Ret file /\
  ~ exists r, load_quads file = Ret (Some r) /\ read_back nq a tg rf tmp r.
Proof.
  destruct one_required_mesh as [M R]. destruct (required_unreadable _ _ _ _ _ M R) as (file & S & L).
  exists 2, two_quads, one_required, two_refs, same_numbers, file. split; [exact M|]. split; [exact S|].
  intros (r & X & _). rewrite L in X. discriminate X.
Qed.

Print Assumptions required_header_doubled.
Print Assumptions required_unreadable.
Print Assumptions quads_read_back_partial.
Print Assumptions required_read_back.
Print Assumptions save_load_quads_refuted.
