(** C19: removal of the small components of both sides of a level-set. *)
From Coq Require Import ZArith QArith Qabs Lqa List Bool Lia Relations Permutation.
From Verif Require Import CBase Chain BdryProofs OctModel PropsOct2 SplitModel FracModel PropsFrac PropsScale RmcModel RmcProofs.
Import ListNotations.
Open Scope Z_scope.

Lemma d3_ok : dim_ok d3.
Proof.
  constructor.
  - cbn. lia.
  - intros i j Hi Hj. cbn in *. destruct i as [|[|[|[|i]]]]; [| | | |lia]; cbn in Hj; destruct Hj as [<-|[<-|[<-|[]]]]; lia.
  - intros i j Hi Hj. cbn in *. destruct i as [|[|[|[|i]]]]; [| | | |lia]; cbn in Hj; destruct Hj as [<-|[<-|[<-|[]]]]; cbn; tauto.
  - intros p v pm H. apply parts_defined. exact H.
Qed.

Lemma d2_ok : dim_ok d2.
Proof.
  constructor.
  - cbn. lia.
  - intros i j Hi Hj. cbn in *. destruct i as [|[|[|i]]]; [| | |lia]; cbn in Hj; destruct Hj as [<-|[<-|[]]]; lia.
  - intros i j Hi Hj. cbn in *. destruct i as [|[|[|i]]]; [| | |lia]; cbn in Hj; destruct Hj as [<-|[<-|[]]]; cbn; tauto.
  - intros p v pm H. eexists. reflexivity.
Qed.

(** Volume of the mesh: sum over the valid elements. *)
Definition valid_list (m : rmesh) : list Z := filter (fun k => eok (aget (r_elt m) k)) (zrange 1 (r_n m)).
Definition total (d : dim) (m : rmesh) : Q := sumQ (fun k => volf d (fun i => r_pos m (vtx m k i))) (valid_list m).

Lemma voltot_spec d m np : wf d m np -> exists t, voltot d m = Ret t /\ (t == total d m)%Q.
Proof.
  intros W. unfold voltot. rewrite for_range_fold.
  destruct (@foldM_inv Z Q (fun pre s => s == sumQ (fun k => volf d (fun i => r_pos m (vtx m k i))) (filter (fun k => eok (aget (r_elt m) k)) pre))%Q
    (fun k s => e <- rd (r_elt m) k ;; if negb (eok e) then Ret s else Ret (s + volf d (fun i => r_pos m (ver e i)))%Q) (zrange 1 (r_n m)) 0%Q) as (t & Et & Ht).
  - reflexivity.
  - intros pre k post s Es Hs. assert (Hk : 1 <= k <= r_n m) by (apply in_zrange; rewrite Es; apply in_elt).
    rewrite rd_ok by (pose proof (w_elt d m _ W); lia). cbn [bind]. rewrite filter_app. cbn [filter].
    destruct (eok (aget (r_elt m) k)); cbn [negb].
    + eexists. split; [reflexivity|]. rewrite sumQ_app, <- Hs. cbn [sumQ fold_right]. rewrite Qplus_0_r. reflexivity.
    + eexists. split; [reflexivity|]. rewrite app_nil_r. exact Hs.
  - exists t. auto.
Qed.

(** The sides and the value given to the vertices of a removed component. *)
Lemma sides : (forall x, inside 1 x <-> 0 < x)%Q /\ (forall x, inside (-1) x <-> x < 0)%Q /\
  (flipped 1 == - (1 # 10000))%Q /\ (flipped (-1) == 1 # 10000)%Q.
Proof.
  split; [|split; [|split; reflexivity]]; intros x; unfold inside, insideb; cbn [Z.eqb Pos.eqb].
  - destruct (Qltb_spec 0 x) as [[-> H]|[-> H]]; split; intros X; auto; try discriminate. lra.
  - destruct (Qltb_spec x 0) as [[-> H]|[-> H]]; split; intros X; auto; try discriminate. lra.
Qed.

(** The effect of a pass on the side [pm], from the values [f] to the values [g]. *)
Record cleaned (d : dim) (m : rmesh) (pm : Z) (tot : Q) (f g : Z -> Q) : Prop := {
  c_out : forall p, ~ inside pm (f p) -> g p = f p;
  c_free : forall p, (forall k, ~ touch d m k p) -> g p = f p;
  c_rem : forall p k, inside pm (f p) -> touch d m k p -> removed d m pm tot f k -> g p = flipped pm;
  c_keep : forall p k, inside pm (f p) -> touch d m k p -> ~ removed d m pm tot f k -> g p = f p }.

(** C19 in a mesh without singular vertices: exactly the values of the components that are
    too small (or, with base references, not attached to one) change, first on the positive
    and then on the negative side. *)
Theorem components_removed d m base sol :
  d = d3 \/ d = d2 -> wf d m (alen sol) -> balls d m -> 0 <= base ->
  exists sol1 sol2 ncp ncm tot,
    rmc d m base sol = Ret (Some (sol2, ncp, ncm)) /\ (tot == total d m)%Q /\
    alen sol1 = alen sol /\ alen sol2 = alen sol /\
    cleaned d m 1 tot (aget sol) (aget sol1) /\ cleaned d m (-1) tot (aget sol1) (aget sol2).
Proof.
  intros Hd W B Hb. assert (DK : dim_ok d) by (destruct Hd as [-> | ->]; [apply d3_ok|apply d2_ok]).
  pose proof (w_n d m _ W) as Hn.
  unfold rmc. destruct (voltot_spec d m _ W) as (tot & Et & Ht). rewrite Et. cbn [bind].
  destruct (pass_spec d m 1 (base + 1) tot sol DK (or_introl eq_refl) W B (acalloc (r_n m + 1) 0)) as (flg1 & sol1 & ncp & E1 & I1).
  { reflexivity. }
  { intros l. cbn. lia. }
  rewrite E1. cbn [bind].
  assert (L1 : alen sol1 = alen sol) by apply (v_sol _ _ _ _ _ _ _ _ _ I1).
  assert (W1 : wf d m (alen sol1)) by (rewrite L1; exact W).
  destruct (pass_spec d m (-1) (base + 2) tot sol1 DK (or_intror eq_refl) W1 B flg1) as (flg2 & sol2 & ncm & E2 & I2).
  { apply (v_len _ _ _ _ _ _ _ _ _ I1). }
  { intros l. pose proof (v_le _ _ _ _ _ _ _ _ _ I1 l). lia. }
  rewrite E2. cbn [bind]. exists sol1, sol2, ncp, ncm, tot. split; [reflexivity|]. split; [exact Ht|].
  split; [exact L1|]. split; [rewrite <- L1; apply (v_sol _ _ _ _ _ _ _ _ _ I2)|].
  split.
  - destruct (inv_result d m 1 (base + 1) tot sol W B flg1 sol1 I1) as (A1 & A2 & A3 & A4). constructor; assumption.
  - destruct (inv_result d m (-1) (base + 2) tot sol1 W1 B flg2 sol2 I2) as (A1 & A2 & A3 & A4). constructor; assumption.
Qed.

(** ** What is left *)

Lemma cleaned_side d m pm tot f g k p :
  pm = 1 \/ pm = -1 -> cleaned d m pm tot f g -> touch d m k p -> inside pm (g p) ->
  inside pm (f p) /\ ~ removed d m pm tot f k.
Proof.
  intros PM C T G.
  assert (F : inside pm (f p)).
  { destruct (insideb pm (f p)) eqn:E; [exact E|]. exfalso.
    assert (N : ~ inside pm (f p)) by (unfold inside; congruence). apply N. rewrite <- (c_out _ _ _ _ _ _ C p N). exact G. }
  split; [exact F|]. intros R. unfold inside in G. rewrite (c_rem _ _ _ _ _ _ C p k F T R), (flipped_out pm PM) in G. discriminate.
Qed.

(** C19: after a pass no component of its side is small. *)
Theorem remaining_large d m pm tot f g np k L :
  d = d3 \/ d = d2 -> pm = 1 \/ pm = -1 -> wf d m np -> balls d m -> cleaned d m pm tot f g ->
  elem m k -> (exists i, (i < nv d)%nat /\ inside pm (g (vtx m k i))) ->
  comp d m (fun p => inside pm (g p)) k L -> (r_rmc m * tot <= sumQ (part d m pm g) L)%Q.
Proof.
  intros Hd PM W B C Ek (i & Hi & G) HL.
  assert (DK : dim_ok d) by (destruct Hd as [-> | ->]; [apply d3_ok|apply d2_ok]).
  destruct (cleaned_side d m pm tot f g k (vtx m k i) PM C) as [F NR]; auto.
  { split; [exact Ek|]. exists i. auto. }
  (* the values of an element of the component do not change *)
  assert (Keep : forall l, conn d m (fun p => inside pm (f p)) k l -> elem m l -> forall j, (j < nv d)%nat -> g (vtx m l j) = f (vtx m l j)).
  { intros l Cl El j Hj. destruct (insideb pm (f (vtx m l j))) eqn:E.
    - apply (c_keep _ _ _ _ _ _ C (vtx m l j) l E); [split; [exact El|]; exists j; auto|].
      intros (L' & HL' & X). apply NR. exists L'. split; [|exact X]. eapply comp_conn; [exact W| |exact HL']. eapply conn_sym; eauto.
    - apply (c_out _ _ _ _ _ _ C). unfold inside. congruence. }
  assert (CE : forall l, conn d m (fun p => inside pm (g p)) k l <-> conn d m (fun p => inside pm (f p)) k l).
  { intros l. split; intros X; apply clos_rt_rtn1_iff in X.
    - induction X as [|y z S X IH]; [apply rt_refl|]. eapply conn_trans; [exact IH|]. apply rt_step.
      destruct S as (A1 & A2 & j & i' & A3 & A4 & A5 & A6). split; [exact A1|]. split; [exact A2|]. exists j, i'.
      rewrite <- (Keep y IH A1); auto. apply (dk_lt d DK j); assumption.
    - induction X as [|y z S X IH]; [apply rt_refl|].
      assert (Y : conn d m (fun p => inside pm (f p)) k y) by (apply clos_rt_rtn1_iff; exact X).
      eapply conn_trans; [exact IH|]. apply rt_step.
      destruct S as (A1 & A2 & j & i' & A3 & A4 & A5 & A6). split; [exact A1|]. split; [exact A2|]. exists j, i'.
      rewrite (Keep y Y A1); auto. apply (dk_lt d DK j); assumption. }
  assert (HLf : comp d m (fun p => inside pm (f p)) k L).
  { destruct HL as (N & H). split; [exact N|]. intros l. rewrite H. apply CE. }
  apply Qnot_lt_le. intros X. apply NR. exists L. split; [exact HLf|]. left.
  rewrite (sumQ_ext (part d m pm f) (part d m pm g) L); [exact X|]. intros l Hl.
  assert (Cl : conn d m (fun p => inside pm (f p)) k l) by (apply HLf; exact Hl).
  rewrite (part_ext d m pm tot (acalloc 0 0%Q) f g l); [reflexivity|]. intros j Hj. symmetry. apply Keep; auto. eapply conn_elem; eauto.
Qed.

Lemma touch_dec d m p : (exists k, touch d m k p) \/ (forall k, ~ touch d m k p).
Proof.
  set (t := fun k => eok (aget (r_elt m) k) && existsb (fun i => p =? vtx m k i) (seq 0 (nv d))).
  destruct (existsb t (zrange 1 (r_n m))) eqn:E.
  - left. apply existsb_exists in E. destruct E as (k & Hk & Tk). unfold t in Tk. apply andb_true_iff in Tk. destruct Tk as [T1 T2].
    apply existsb_exists in T2. destruct T2 as (i & Hi & Ti). apply in_seq in Hi. apply Z.eqb_eq in Ti. apply in_zrange in Hk.
    exists k. split; [split; assumption|]. exists i. split; [lia|auto].
  - right. intros k ((Hk & Ok) & i & Hi & Pi). assert (X : existsb t (zrange 1 (r_n m)) = true); [|congruence].
    apply existsb_exists. exists k. split; [apply in_zrange; exact Hk|]. unfold t. rewrite Ok. cbn [andb]. apply existsb_exists.
    exists i. split; [apply in_seq; lia|]. apply Z.eqb_eq. auto.
Qed.

(** C19: with a zero threshold and no base reference nothing changes when the values are
    snapped. *)
Theorem nothing_removed d m base sol :
  d = d3 \/ d = d2 -> wf d m (alen sol) -> balls d m -> 0 <= base ->
  (r_rmc m <= 0)%Q -> r_nbr m = false -> (forall p, aget sol p == 0 \/ eps <= Qabs (aget sol p))%Q ->
  exists sol' ncp ncm, rmc d m base sol = Ret (Some (sol', ncp, ncm)) /\ forall p, aget sol' p = aget sol p.
Proof.
  intros Hd W B Hb Hr Hn S.
  destruct (components_removed d m base sol Hd W B Hb) as (sol1 & sol2 & ncp & ncm & tot & E & Ht & L1 & L2 & C1 & C2).
  assert (T0 : (0 <= tot)%Q).
  { rewrite Ht. unfold total. generalize (valid_list m). intros l. induction l as [|x l IH]; [discriminate|].
    change (0 <= volf d (fun i => r_pos m (vtx m x i)) + sumQ (fun k => volf d (fun i => r_pos m (vtx m k i))) l)%Q.
    assert (0 <= volf d (fun i => r_pos m (vtx m x i)))%Q; [|lra].
    destruct Hd as [-> | ->]; cbn [volf d3 d2]; [apply Qabs_nonneg|unfold area2; apply prod_pos; [discriminate|apply Qabs_nonneg]]. }
  assert (NR : forall pm f, pm = 1 \/ pm = -1 -> (forall p, f p == 0 \/ eps <= Qabs (f p))%Q -> forall k, ~ removed d m pm tot f k).
  { intros pm f PM Sf k (L & HL & [X|(X & _)]); [|congruence].
    assert (P : (0 <= sumQ (part d m pm f) L)%Q).
    { clear - Hd PM Sf. induction L as [|x l IH]; [discriminate|].
      change (0 <= part d m pm f x + sumQ (part d m pm f) l)%Q. assert (0 <= part d m pm f x)%Q; [|lra]. unfold part.
      assert (Sn : forall n, (n <= nv d)%nat -> snapped (fun i => nth i (evals d m f x) 0%Q) n).
      { intros n Hn i Hi. cbv beta. unfold evals.
        rewrite (nth_indep _ 0%Q (f (vtx m x 0%nat))) by (rewrite map_length, seq_length; lia).
        rewrite (map_nth (fun i => f (vtx m x i))). apply Sf. }
      destruct (frac d (fun i => r_pos m (vtx m x i)) (fun i => nth i (evals d m f x) 0%Q) pm) as [y|] eqn:Ef; [|discriminate].
      destruct Hd as [-> | ->]; cbn [frac d3 d2] in Ef.
      - destruct (parts_bounds _ _ pm y PM (Sn 4%nat ltac:(cbn; lia)) Ef) as [Y _]. exact Y.
      - injection Ef as <-. apply (triangle_bounds _ _ pm PM (Sn 3%nat ltac:(cbn; lia))). }
    assert (r_rmc m * tot <= 0)%Q; [|lra].
    setoid_replace 0%Q with (0 * tot)%Q by ring. apply Qmult_le_compat_r; assumption. }
  assert (Same : forall pm f g, pm = 1 \/ pm = -1 -> (forall p, f p == 0 \/ eps <= Qabs (f p))%Q -> cleaned d m pm tot f g ->
     forall p, g p = f p).
  { intros pm f g PM Sf C p. destruct (touch_dec d m p) as [(k & T)|N]; [|apply (c_free _ _ _ _ _ _ C p N)].
    destruct (insideb pm (f p)) eqn:Ei.
    - apply (c_keep _ _ _ _ _ _ C p k Ei T). apply NR; assumption.
    - apply (c_out _ _ _ _ _ _ C). unfold inside. congruence. }
  assert (S1 : forall p, aget sol1 p = aget sol p) by (intros p; apply (Same 1 (aget sol) (aget sol1)); auto).
  exists sol2, ncp, ncm. split; [exact E|]. intros p. rewrite <- (S1 p). apply (Same (-1) (aget sol1) (aget sol2)); auto.
  intros q. rewrite S1. apply S.
Qed.

(** ** Concrete meshes *)

Definition elemb (m : rmesh) (k : Z) : bool := (1 <=? k) && (k <=? r_n m) && eok (aget (r_elt m) k).
Definition vs (d : dim) : list nat := seq 0 (nv d).
Definition stepb (d : dim) (m : rmesh) (p k l : Z) : bool :=
  elemb m k && elemb m l && existsb (fun j => (nbf d m k j =? l) && existsb (fun i => p =? vtx m k i) (fac d j)) (vs d).
Fixpoint reachb (n : nat) (d : dim) (m : rmesh) (p k l : Z) : bool :=
  (k =? l) || match n with O => false | S n => existsb (fun j => stepb d m p k (nbf d m k j) && reachb n d m p (nbf d m k j) l) (vs d) end.
Definition ballsb (n : nat) (d : dim) (m : rmesh) : bool :=
  forallb (fun k => forallb (fun l => forallb (fun i => forallb (fun j =>
    negb (elemb m k && elemb m l && (vtx m k i =? vtx m l j)) || reachb n d m (vtx m k i) k l) (vs d)) (vs d)) (zrange 1 (r_n m))) (zrange 1 (r_n m)).
Definition wfb (d : dim) (m : rmesh) (np : Z) : bool :=
  (0 <=? r_n m) && (r_n m <? alen (r_elt m)) && (Z.of_nat (nv d) * r_n m <? alen (r_adja m)) &&
  forallb (fun k => negb (elemb m k) || forallb (fun i => (0 <=? vtx m k i) && (vtx m k i <? np) &&
     let l := nbf d m k i in
     ((l =? 0) || (elemb m l && existsb (fun i' => (nbf d m l i' =? k) &&
        forallb (fun a => existsb (fun b => vtx m l b =? vtx m k a) (fac d i')) (fac d i)) (vs d)))) (vs d)) (zrange 1 (r_n m)).

Lemma elemb_ok m k : elemb m k = true <-> elem m k.
Proof. unfold elemb, elem. rewrite !andb_true_iff, !Z.leb_le. tauto. Qed.

Lemma in_vs d i : In i (vs d) <-> (i < nv d)%nat.
Proof. unfold vs. rewrite in_seq. lia. Qed.

Lemma stepb_ok d m p k l : stepb d m p k l = true -> stepr d m (eq p) k l.
Proof.
  unfold stepb. rewrite !andb_true_iff, !elemb_ok. intros [[A B] C]. apply existsb_exists in C. destruct C as (j & Hj & C).
  apply andb_true_iff in C. destruct C as [C D]. apply existsb_exists in D. destruct D as (i & Hi & D).
  apply in_vs in Hj. apply Z.eqb_eq in C, D. split; [exact A|]. split; [exact B|]. exists j, i. auto.
Qed.

Lemma reachb_ok n d m p : forall k l, reachb n d m p k l = true -> conn d m (eq p) k l.
Proof.
  induction n as [|n IH]; intros k l H; cbn [reachb] in H; apply orb_true_iff in H; destruct H as [H|H]; try discriminate.
  1,2: apply Z.eqb_eq in H; subst; apply rt_refl.
  apply existsb_exists in H. destruct H as (j & _ & H). apply andb_true_iff in H. destruct H as [A B].
  eapply rt_trans; [apply rt_step; apply stepb_ok; exact A|apply IH; exact B].
Qed.

Lemma ballsb_ok n d m : ballsb n d m = true -> balls d m.
Proof.
  intros H p k l (Ek & i & Hi & Pi) (El & j & Hj & Pj). unfold ballsb in H.
  rewrite forallb_forall in H. pose proof (H k ltac:(apply in_zrange; apply Ek)) as H1. cbv beta in H1.
  rewrite forallb_forall in H1. pose proof (H1 l ltac:(apply in_zrange; apply El)) as H2. cbv beta in H2.
  rewrite forallb_forall in H2. pose proof (H2 i ltac:(apply in_vs; exact Hi)) as H3. cbv beta in H3.
  rewrite forallb_forall in H3. pose proof (H3 j ltac:(apply in_vs; exact Hj)) as H4. cbv beta in H4.
  apply orb_true_iff in H4. destruct H4 as [H4|H4].
  - apply negb_true_iff in H4. apply elemb_ok in Ek, El. rewrite Ek, El, Pi, Pj, Z.eqb_refl in H4. discriminate.
  - apply reachb_ok in H4. rewrite Pi in H4. exact H4.
Qed.

Lemma wfb_ok d m np : wfb d m np = true -> wf d m np.
Proof.
  unfold wfb. rewrite !andb_true_iff, Z.leb_le, !Z.ltb_lt, forallb_forall. intros [[[A B] C] H].
  assert (K : forall k i, elem m k -> (i < nv d)%nat -> (0 <= vtx m k i < np) /\ (nbf d m k i <> 0 ->
     elem m (nbf d m k i) /\ exists j', (j' < nv d)%nat /\ nbf d m (nbf d m k i) j' = k /\
      forall a, In a (fac d i) -> exists i', In i' (fac d j') /\ vtx m (nbf d m k i) i' = vtx m k a)).
  { intros k i Ek Hi. pose proof (H k ltac:(apply in_zrange; apply Ek)) as H1. cbv beta in H1. apply elemb_ok in Ek. rewrite Ek in H1.
    cbn [negb orb] in H1. rewrite forallb_forall in H1. pose proof (H1 i ltac:(apply in_vs; exact Hi)) as H2. cbv beta zeta in H2.
    rewrite !andb_true_iff, orb_true_iff, andb_true_iff, Z.leb_le, Z.ltb_lt in H2. destruct H2 as [V H2]. split; [exact V|].
    intros N. destruct H2 as [H2|[El H2]]; [apply Z.eqb_eq in H2; contradiction|]. apply elemb_ok in El. split; [exact El|].
    apply existsb_exists in H2. destruct H2 as (j' & Hj & H2). apply andb_true_iff in H2. destruct H2 as [E H2]. apply Z.eqb_eq in E.
    rewrite forallb_forall in H2. exists j'. split; [apply in_vs; exact Hj|]. split; [exact E|]. intros a Ha.
    pose proof (H2 a Ha) as H3. cbv beta in H3. apply existsb_exists in H3. destruct H3 as (b & Hb & Eb). apply Z.eqb_eq in Eb. eauto. }
  constructor; auto; intros k i Ek Hi; apply (K k i Ek Hi).
Qed.

(** A strip of four triangles; a positive value at vertex 1 and one at vertices 5 and 6. *)
Definition tr (a b c : Z) : elt := mkE (fun i => nth i [a; b; c] 0) (fun _ => false) true.
Definition tr0 : elt := mkE (fun _ => 0) (fun _ => false) false.
Definition strip_pos (p : Z) : v3 :=
  match p with 1 => mkV 0 1 0 | 2 => mkV 0 0 0 | 3 => mkV 1 1 0 | 4 => mkV 1 0 0 | 5 => mkV 2 1 0 | _ => mkV 2 0 0 end.
Definition strip : rmesh :=
  mkR 4 (aof tr0 [tr 1 2 3; tr 2 4 3; tr 3 4 5; tr 4 6 5]) (aof 0 [7;0;0; 11;3;0; 13;0;6; 0;9;0]) strip_pos (1#10) false.
Definition strip_sol : arr Q := aof 0%Q [1#2; -(1); -(1); -(1); 1; 1]%Q.

Example strip_wf : wf d2 strip (alen strip_sol).
Proof. apply wfb_ok. vm_compute. reflexivity. Qed.

Example strip_balls : balls d2 strip.
Proof. apply (ballsb_ok 4). vm_compute. reflexivity. Qed.

(** The component at vertex 1 is removed, the one at vertices 5 and 6 stays, and so does the
    negative one. *)
Example strip_cleaned : exists r, rmc d2 strip 0 strip_sol = Ret r /\
  match r with
  | Some (s, ncp, ncm) => ncp = 1 /\ ncm = 0 /\ forall p, 1 <= p <= 6 -> (aget s p == if p =? 1 then - (100 * EPS) else aget strip_sol p)%Q
  | None => False
  end.
Proof.
  apply ret_wit.
  assert (H : match rmc d2 strip 0 strip_sol with
    | Ret (Some (s, ncp, ncm)) => (ncp =? 1) && (ncm =? 0) && forallb (fun p => Qeq_bool (aget s p) (if p =? 1 then - (100 * EPS) else aget strip_sol p)%Q) (zrange 1 6)
    | _ => false end = true) by (vm_compute; reflexivity).
  destruct (rmc d2 strip 0 strip_sol) as [[[[s ncp] ncm]|]|]; try discriminate.
  apply andb_true_iff in H. destruct H as [H F]. apply andb_true_iff in H. destruct H as [A B]. apply Z.eqb_eq in A, B.
  split; [exact A|]. split; [exact B|]. intros p Hp. rewrite forallb_forall in F. apply Qeq_bool_iff. apply F. apply in_zrange. exact Hp.
Qed.

(** The case of [nothing_removed]: the same strip with a zero threshold. *)
Definition strip0 : rmesh := mkR 4 (r_elt strip) (r_adja strip) strip_pos 0 false.
Example strip0_hyps : wf d2 strip0 (alen strip_sol) /\ balls d2 strip0 /\ (r_rmc strip0 <= 0)%Q /\ r_nbr strip0 = false /\
  forall p, (aget strip_sol p == 0 \/ eps <= Qabs (aget strip_sol p))%Q.
Proof.
  split; [apply wfb_ok; vm_compute; reflexivity|]. split; [apply (ballsb_ok 4); vm_compute; reflexivity|].
  split; [discriminate|]. split; [reflexivity|]. intros p. unfold strip_sol, aof. cbn [aget]. destruct (p <=? 0); [left; reflexivity|].
  destruct (Z.to_nat (p - 1)) as [|[|[|[|[|[|n]]]]]]; cbn [nth]; try (right; apply Qle_bool_iff; vm_compute; reflexivity).
  left. destruct n; reflexivity.
Qed.

(** ** Components that touch at a vertex *)

(** Two triangles that share vertex 3 only; every value is positive but those of vertices 1
    and 2. *)
Definition bow : rmesh :=
  mkR 2 (aof tr0 [tr 1 2 3; tr 3 4 5]) (aof 0 [0;0;0; 0;0;0])
    (fun p => match p with 1 => mkV 0 1 0 | 2 => mkV 0 0 0 | 3 => mkV 1 0 0 | 4 => mkV 9 0 0 | _ => mkV 9 9 0 end) (1#10) false.
Definition bow_sol : arr Q := aof 0%Q [-(1); -(1); 1; 1; 1]%Q.

(** The component of the second triangle is not to be removed, yet the value of its vertex
    3 changes with the removal of the component of the first. *)
Theorem shared_vertex_refuted :
  exists m sol s ncp ncm k p, wf d2 m (alen sol) /\ rmc d2 m 0 sol = Ret (Some (s, ncp, ncm)) /\
    touch d2 m k p /\ inside 1 (aget sol p) /\
    ~ removed d2 m 1 (total d2 m) (aget sol) k /\ ~ (aget s p == aget sol p)%Q.
Proof.
  assert (H : match rmc d2 bow 0 bow_sol with Ret (Some (s, ncp, ncm)) => negb (Qeq_bool (aget s 3) (aget bow_sol 3)) | _ => false end = true)
    by (vm_compute; reflexivity).
  destruct (rmc d2 bow 0 bow_sol) as [[[[s ncp] ncm]|]|] eqn:E; [|discriminate H|discriminate H].
  exists bow, bow_sol, s, ncp, ncm, 2, 3.
  assert (E2 : elem bow 2) by (apply elemb_ok; reflexivity).
  split; [apply wfb_ok; vm_compute; reflexivity|]. split; [exact E|].
  split; [split; [exact E2|]; exists 0%nat; split; [cbn; lia|reflexivity]|]. split; [reflexivity|].
  split; [|intros X; apply Qeq_bool_iff in X; rewrite X in H; discriminate].
  intros (L & HL & [X|(X & _)]); [|discriminate].
  assert (C2 : comp d2 bow (fun p => inside 1 (aget bow_sol p)) 2 [2]).
  { split; [repeat constructor; intros []|]. intros l. split.
    - intros [<-|[]]. apply rt_refl.
    - intros C. apply clos_rt_rt1n_iff in C. inversion C as [|y z S1 _ EE]; subst; [left; reflexivity|].
      destruct S1 as (_ & Ey & j & i & Hj & N & _). exfalso.
      assert (y = 0); [|destruct Ey as [Ey _]; lia]. rewrite <- N. destruct j as [|[|[|j]]]; try reflexivity. cbn in Hj. lia. }
  rewrite (sumQ_perm _ L [2]) in X by (eapply comp_perm; eauto).
  revert X. apply Qle_not_lt. apply Qle_bool_iff. vm_compute. reflexivity.
Qed.

(** A negative component below the threshold and away from base references is counted
    twice. *)
Definition lone : rmesh :=
  mkR 1 (aof tr0 [tr 1 2 3]) (aof 0 [0;0;0]) (fun p => match p with 1 => mkV 0 1 0 | 2 => mkV 0 0 0 | _ => mkV 1 0 0 end) (1#2) true.
Definition lone_sol : arr Q := aof 0%Q [-(1#10); 1; 1]%Q.

Theorem double_count_refuted :
  exists m sol s ncp ncm, wf d2 m (alen sol) /\ balls d2 m /\ rmc d2 m 0 sol = Ret (Some (s, ncp, ncm)) /\ r_n m < ncm.
Proof.
  assert (H : match rmc d2 lone 0 lone_sol with Ret (Some (s, ncp, ncm)) => ncm =? 2 | _ => false end = true)
    by (vm_compute; reflexivity).
  destruct (rmc d2 lone 0 lone_sol) as [[[[s ncp] ncm]|]|] eqn:E; [|discriminate H|discriminate H].
  exists lone, lone_sol, s, ncp, ncm. split; [apply wfb_ok; vm_compute; reflexivity|].
  split; [apply (ballsb_ok 2); vm_compute; reflexivity|]. split; [exact E|]. apply Z.eqb_eq in H. subst. reflexivity.
Qed.

Print Assumptions sides.
Print Assumptions components_removed.
Print Assumptions remaining_large.
Print Assumptions nothing_removed.
Print Assumptions shared_vertex_refuted.
Print Assumptions double_count_refuted.
