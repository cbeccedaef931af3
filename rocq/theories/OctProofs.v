(** Invariants of the search tree. *)
From Coq Require Import ZArith QArith List Lia Bool Permutation Arith.
From Coq Require Import ZifyBool ZifyNat.
From Verif Require Import CBase Chain OctModel.
Import ListNotations.
Open Scope Z_scope.

(** ** Powers of 2 *)

Lemma pow2b_true n : 0 < n -> pow2b n = true -> exists e, 0 <= e /\ n = 2 ^ e.
Proof.
  intros Hn H. unfold pow2b in H. apply Z.eqb_eq in H. exists (Z.log2 n). split; [apply Z.log2_nonneg|].
  pose proof (Z.log2_spec n Hn) as [L1 L2]. destruct (Z.eq_dec n (2 ^ Z.log2 n)) as [|N]; [assumption|]. exfalso.
  assert (L3 : Z.log2 (n - 1) = Z.log2 n).
  { apply Z.log2_unique; [apply Z.log2_nonneg|]. lia. }
  assert (P : 0 < 2 ^ Z.log2 n) by (apply Z.pow_pos_nonneg; [lia|apply Z.log2_nonneg]).
  assert (B1 : Z.testbit n (Z.log2 n) = true) by (apply Z.bit_log2; lia).
  assert (B2 : Z.testbit (n - 1) (Z.log2 n) = true) by (rewrite <- L3; apply Z.bit_log2; lia).
  assert (B3 : Z.testbit (Z.land n (n - 1)) (Z.log2 n) = true) by (rewrite Z.land_spec, B1, B2; reflexivity).
  rewrite H, Z.bits_0 in B3. discriminate.
Qed.

Lemma pow2b_pow e : 0 <= e -> pow2b (2 ^ e) = true.
Proof.
  intros He. unfold pow2b. apply Z.eqb_eq. replace (2 ^ e - 1) with (Z.ones e) by (rewrite Z.ones_equiv; lia).
  rewrite Z.land_ones by exact He. apply Z.mod_same. pose proof (Z.pow_pos_nonneg 2 e). lia.
Qed.

Lemma pow_between e f : 0 <= e -> 0 <= f -> 2 ^ f <= 2 ^ e -> 2 ^ e < 2 * 2 ^ f -> e = f.
Proof.
  intros He Hf H1 H2. rewrite <- Z.pow_succ_r in H2 by exact Hf.
  apply Z.pow_le_mono_r_iff in H1; [|lia|lia]. apply Z.pow_lt_mono_r_iff in H2; lia.
Qed.

Lemma pow_pos e : 0 <= e -> 1 <= 2 ^ e.
Proof. intros H. pose proof (Z.pow_pos_nonneg 2 e). lia. Qed.

(** Size of the table of a cell with [n] vertices. *)
Definition exactcap (nv n cap : Z) : Prop :=
  (0 < n <= nv /\ exists e, 0 <= e /\ cap = 2 ^ e /\ n <= cap < 2 * n) \/
  (nv < n <= 2 * nv /\ cap = 2 * nv) \/
  (2 * nv < n <= 3 * nv /\ cap = 3 * nv).

Lemma exact_one nv : 1 <= nv -> exactcap nv 1 1.
Proof. intros H. left. split; [lia|]. exists 0. change (2 ^ 0) with 1. lia. Qed.

Lemma exact_full e : 0 <= e -> exactcap (2 ^ e) (2 ^ e) (2 ^ e).
Proof. intros H. pose proof (pow_pos e H). left. split; [lia|]. exists e. lia. Qed.

Lemma exact_double nv n cap : exactcap nv n cap -> n < nv -> pow2b n = true -> n = cap /\ exactcap nv (n + 1) (2 * n).
Proof.
  intros [(H & e & He & Ec & Hc)|[H|H]] Hn Hp; [|lia|lia].
  destruct (pow2b_true n) as (f & Hf & En); [lia|exact Hp|]. subst cap n.
  assert (e = f) by (apply pow_between; lia). subst f. split; [reflexivity|]. left. split; [lia|].
  exists (e + 1). rewrite Z.pow_add_r by lia. change (2 ^ 1) with 2. lia.
Qed.

Lemma exact_keep nv n cap : exactcap nv n cap -> n < nv -> pow2b n = false -> n < cap /\ exactcap nv (n + 1) cap.
Proof.
  intros [(H & e & He & Ec & Hc)|[H|H]] Hn Hp; [|lia|lia].
  assert (n <> cap) by (intros ->; subst cap; rewrite pow2b_pow in Hp by exact He; discriminate).
  split; [lia|]. left. split; [lia|]. exists e. lia.
Qed.

Lemma exact_step E n cap : 0 <= E -> exactcap (2 ^ E) n cap -> 2 ^ E <= n < 3 * 2 ^ E -> n mod 2 ^ E = 0 ->
  n = cap /\ exactcap (2 ^ E) (n + 1) (n + 2 ^ E).
Proof.
  intros HE H Hn Hm. pose proof (pow_pos E HE) as Hp. remember (2 ^ E) as nv eqn:Env.
  assert (C : n = nv \/ n = 2 * nv).
  { clear - Hp Hn Hm. assert (Ed : n = nv * (n / nv)) by (pose proof (Z.div_mod n nv); lia).
    assert (1 <= n / nv) by (apply Z.div_le_lower_bound; lia).
    assert (n / nv < 3) by (apply Z.div_lt_upper_bound; [lia|rewrite Z.mul_comm; apply Hn]).
    assert (Hq : n / nv = 1 \/ n / nv = 2) by lia. destruct Hq as [Hq|Hq]; rewrite Hq in Ed; lia. }
  destruct C as [-> | ->].
  - destruct H as [(H & e & He & Ec & Hc)|[H|H]]; [|lia|lia]. subst cap nv.
    assert (e = E) by (apply pow_between; lia). subst e. split; [reflexivity|]. right. left. lia.
  - destruct H as [(H & e & He & Ec & Hc)|[H|H]]; [lia| |lia]. split; [lia|]. right. right. lia.
Qed.

Lemma exact_rest nv n cap : 1 <= nv -> exactcap nv n cap -> nv <= n < 3 * nv -> n mod nv <> 0 ->
  n < cap /\ exactcap nv (n + 1) cap.
Proof.
  intros Hp H Hn Hm.
  assert (n <> nv) by (intros ->; apply Hm; apply Z.mod_same; lia).
  assert (n <> 2 * nv) by (intros ->; apply Hm; apply Z.mod_mul; lia).
  unfold exactcap. destruct H as [H|[H|H]]; [lia|split; [lia|right; left; lia]|split; [lia|right; right; lia]].
Qed.

Lemma pow2b_false n : 0 < n -> (forall e, 0 <= e -> n <> 2 ^ e) -> pow2b n = false.
Proof. intros Hn H. destruct (pow2b n) eqn:E; [|reflexivity]. destruct (pow2b_true n Hn E) as (e & He & En). destruct (H e He En). Qed.

Lemma exact_del E n cap : 0 <= E -> exactcap (2 ^ E) n cap -> 2 <= n ->
  exactcap (2 ^ E) (n - 1) (if pow2b (n - 1) then n - 1 else cap).
Proof.
  intros HE H Hn. pose proof (pow_pos E HE) as Hp.
  destruct (pow2b (n - 1)) eqn:Ep.
  - destruct (pow2b_true (n - 1)) as (e & He & En); [lia|exact Ep|].
    destruct (Z.le_gt_cases (n - 1) (2 ^ E)).
    + left. split; [lia|]. exists e. lia.
    + right. left. destruct H as [H|[H|H]]; [lia| |].
      * exfalso. rewrite En in *. assert (e = E) by (apply pow_between; lia). subst e. lia.
      * assert (n - 1 = 2 * 2 ^ E); [|lia].
        destruct (Z.eq_dec (n - 1) (2 * 2 ^ E)); [assumption|]. exfalso. rewrite En in *.
        assert (e = E + 1); [|subst e; rewrite Z.pow_add_r in * by lia; change (2 ^ 1) with 2 in *; lia].
        apply pow_between; [lia|lia| |]; rewrite Z.pow_add_r by lia; change (2 ^ 1) with 2; lia.
  - assert (N : forall e, 0 <= e -> n - 1 <> 2 ^ e).
    { intros e He En. rewrite En, pow2b_pow in Ep by exact He. discriminate. }
    destruct H as [(H & e & He & Ec & Hc)|[H|H]].
    + left. split; [lia|]. exists e. split; [exact He|]. split; [exact Ec|]. split; [lia|].
      destruct (Z.eq_dec e 0) as [->|]; [change (2 ^ 0) with 1 in Ec; lia|].
      assert (Ee : cap = 2 * 2 ^ (e - 1)) by (rewrite <- Z.pow_succ_r by lia; rewrite Ec; f_equal; lia).
      specialize (N (e - 1)). lia.
    + right. left. specialize (N E). lia.
    + right. right. specialize (N (E + 1)). rewrite Z.pow_add_r in N by lia. change (2 ^ 1) with 2 in N. lia.
Qed.

(** ** Contents *)

Fixpoint contents (c : cell) : list Z :=
  match c with
  | Leaf _ _ None => []
  | Leaf _ _ (Some (_, l)) => l
  | Node _ _ _ br => flat_map (fun i => contents (br i)) (zrange 0 7)
  end.

Definition flat (br : Z -> cell) : list Z := flat_map (fun i => contents (br i)) (zrange 0 7).

Lemma zrange07 : zrange 0 7 = [0; 1; 2; 3; 4; 5; 6; 7].
Proof. reflexivity. Qed.

Lemma flat_map_ext_in A B (f g : A -> list B) l : (forall x, In x l -> f x = g x) -> flat_map f l = flat_map g l.
Proof. induction l as [|a l IH]; intros H; [reflexivity|]. cbn. rewrite H by (left; reflexivity). f_equal. apply IH. intros. apply H. right. assumption. Qed.

Lemma flat_split br i : 0 <= i < 8 -> exists rest,
  Permutation (flat br) (contents (br i) ++ rest) /\
  (forall b, Permutation (flat (upd br i b)) (contents b ++ rest)) /\
  (forall x, In x rest -> exists j, 0 <= j < 8 /\ j <> i /\ In x (contents (br j))).
Proof.
  intros Hi. assert (Hin : In i (zrange 0 7)) by (apply in_zrange; lia).
  assert (Nd : NoDup (zrange 0 7)) by (rewrite zrange07; repeat constructor; cbn; lia).
  assert (Rg : forall j, In j (zrange 0 7) -> 0 <= j < 8) by (intros j Hj; apply in_zrange in Hj; lia).
  unfold flat. destruct (in_split _ _ Hin) as (l1 & l2 & El). rewrite El in *.
  apply NoDup_remove in Nd. destruct Nd as [_ Nd].
  exists (flat_map (fun j => contents (br j)) l1 ++ flat_map (fun j => contents (br j)) l2). split; [|split].
  - rewrite flat_map_app. cbn [flat_map]. apply Permutation_app_swap_app.
  - intros b. rewrite flat_map_app. cbn [flat_map]. rewrite upd_same.
    rewrite (flat_map_ext_in _ _ (fun j => contents (upd br i b j)) (fun j => contents (br j)) l1).
    2:{ intros j Hj. rewrite upd_other; [reflexivity|]. intros ->. apply Nd. apply in_or_app. left. exact Hj. }
    rewrite (flat_map_ext_in _ _ (fun j => contents (upd br i b j)) (fun j => contents (br j)) l2).
    2:{ intros j Hj. rewrite upd_other; [reflexivity|]. intros ->. apply Nd. apply in_or_app. right. exact Hj. }
    apply Permutation_app_swap_app.
  - intros x Hx. rewrite <- flat_map_app in Hx. apply in_flat_map in Hx. destruct Hx as (j & Hj & Hx). exists j.
    split; [|split; [|exact Hx]].
    + apply Rg. apply in_app_or in Hj. apply in_or_app. cbn. intuition.
    + intros ->. contradiction.
Qed.

Lemma flat_in br x : In x (flat br) <-> exists i, 0 <= i < 8 /\ In x (contents (br i)).
Proof.
  unfold flat. rewrite in_flat_map. split; intros (i & Hi & H); exists i; (split; [|exact H]).
  - apply in_zrange in Hi. lia.
  - apply in_zrange. lia.
Qed.

Lemma bit_range x : 0 <= bit x <= 1.
Proof. unfold bit. destruct (up_half x); lia. Qed.

Lemma quad_range p : 0 <= quad p < 8.
Proof. destruct p as [[x y] z]. unfold quad. pose proof (bit_range x). pose proof (bit_range y). pose proof (bit_range z). lia. Qed.

(** ** Cells of a vertex *)

Section Tree.
Variable pts : Z -> pt.
Variable E : Z.
Hypothesis HE : 0 <= E.
Let nv : Z := 2 ^ E.

Definition at_ (d : nat) (x : Z) : pt := Nat.iter d halfp (pts x).

Fixpoint code (d : nat) (x : Z) : Z :=
  match d with
  | O => 0
  | S d => 8 * code d x + quad (at_ d x)
  end.

Lemma nv_pos : 1 <= nv.
Proof. apply pow_pos. exact HE. Qed.

Lemma code_S d x k i : 0 <= i < 8 -> code (S d) x = 8 * k + i <-> code d x = k /\ quad (at_ d x) = i.
Proof using. clear HE nv. intros Hi. cbn [code]. pose proof (quad_range (at_ d x)). lia. Qed.

Lemma rescale_at d x : rescale (Z.of_nat d) (pts x) = at_ d x.
Proof. unfold rescale. rewrite Nat2Z.id. reflexivity. Qed.

Definition D : nat := 20.

Lemma depth_max_D : depth_max = Z.of_nat D.
Proof. reflexivity. Qed.

Fixpoint good (d : nat) (k : Z) (c : cell) : Prop :=
  match c with
  | Leaf nb dp v =>
    dp = Z.of_nat d /\ (d <= D)%nat /\
    match v with
    | None => nb = 0
    | Some (cap, l) =>
      nb = Z.of_nat (length l) /\ 0 < nb <= cap /\ ((d < D)%nat -> nb <= nv) /\
      Forall (fun x => 0 < x /\ code d x = k) l
    end
  | Node nb dp v br =>
    dp = Z.of_nat d /\ (d < D)%nat /\ v = None /\ nb = Z.of_nat (length (flat br)) /\ nv < nb /\
    (forall i, 0 <= i < 8 -> good (S d) (8 * k + i) (br i))
  end.

Definition kids (d : nat) (k : Z) (br : Z -> cell) : Prop :=
  forall i, 0 <= i < 8 -> good (S d) (8 * k + i) (br i).

Fixpoint caps (c : cell) : Prop :=
  match c with
  | Leaf _ _ None => True
  | Leaf _ _ (Some (cap, l)) => exactcap nv (Z.of_nat (length l)) cap
  | Node _ _ _ br => forall i, 0 <= i < 8 -> caps (br i)
  end.

(** Number of vertices in the finest cell of [x]. *)
Definition crowd (x : Z) (l : list Z) : Z :=
  Z.of_nat (length (filter (fun y => code D y =? code D x) l)).

Lemma crowd_perm x l l' : Permutation l l' -> crowd x l = crowd x l'.
Proof using.
  intros H. unfold crowd. f_equal. induction H; cbn [filter].
  - reflexivity.
  - destruct (code D x0 =? code D x); cbn [length]; congruence.
  - destruct (code D y =? code D x), (code D x0 =? code D x); cbn [length]; congruence.
  - congruence.
Qed.

Lemma crowd_app x l l' : crowd x (l ++ l') = crowd x l + crowd x l'.
Proof using. clear HE nv. unfold crowd. rewrite filter_app, app_length. lia. Qed.

Lemma crowd_nonneg x l : 0 <= crowd x l.
Proof using. clear HE nv. unfold crowd. lia. Qed.

Lemma crowd_len x l : crowd x l <= Z.of_nat (length l).
Proof using. clear HE nv. unfold crowd. induction l as [|a l IH]; cbn [filter length]; [lia|]. destruct (_ =? _); cbn [length]; lia. Qed.

Lemma good_in d k c x : good d k c -> In x (contents c) -> 0 < x /\ code d x = k.
Proof using.
  clear HE. revert d k. induction c as [nb dp v|nb dp v br IH]; intros d k G Hx.
  - cbn in G, Hx. destruct v as [[cap l]|]; [|destruct Hx]. destruct G as (_ & _ & _ & _ & _ & F).
    rewrite Forall_forall in F. apply F. exact Hx.
  - cbn [good] in G. destruct G as (_ & _ & _ & _ & _ & K). change (In x (flat br)) in Hx. apply flat_in in Hx.
    destruct Hx as (i & Hi & Hx). destruct (IH i (S d) (8 * k + i) (K i Hi) Hx) as [H1 H2]. split; [exact H1|].
    apply code_S in H2; [|exact Hi]. apply H2.
Qed.

Lemma good_nb d k c : good d k c -> nbv c = Z.of_nat (length (contents c)).
Proof.
  destruct c as [nb dp v|nb dp v br]; cbn [good nbv].
  - intros (_ & _ & H). destruct v as [[cap l]|]; cbn; [apply H|exact H].
  - intros (_ & _ & _ & H & _). exact H.
Qed.

Lemma good_d d k c : good d k c -> dpt c = Z.of_nat d /\ (d <= D)%nat.
Proof. destruct c; cbn; intros H; intuition; lia. Qed.

Definition fuel_for (d : nat) (c : cell) : nat :=
  (2 * (D - d) + match c with Leaf _ _ _ => 1 | Node _ _ _ _ => 0 end)%nat.

Definition add_spec (fuel : nat) : Prop := forall d k c no,
  good d k c -> code d no = k -> 0 < no -> (fuel_for d c <= fuel)%nat ->
  match add_rec fuel pts nv c (at_ d no) no with
  | Ret c' => good d k c' /\ Permutation (contents c') (no :: contents c) /\
              (caps c -> crowd no (contents c) < 3 * nv -> caps c')
  | Stuck => ~ (caps c /\ crowd no (contents c) < 3 * nv)
  end.

Lemma add_node fuel d k nb v br no : add_spec fuel -> kids d k br -> (d < D)%nat -> nv < nb ->
  code d no = k -> 0 < no -> (2 * (D - d) <= S fuel)%nat ->
  let i := quad (at_ d no) in
  match add_rec (S fuel) pts nv (Node nb (Z.of_nat d) v br) (at_ d no) no with
  | Ret c' => exists b, c' = Node (nb + 1) (Z.of_nat d) v (upd br i b) /\ good (S d) (8 * k + i) b /\
       Permutation (contents b) (no :: contents (br i)) /\
       (caps (br i) -> crowd no (contents (br i)) < 3 * nv -> caps b)
  | Stuck => ~ (caps (br i) /\ crowd no (contents (br i)) < 3 * nv)
  end.
Proof.
  intros IH K Hd Hnb Hc Hno Hf i.
  cbn [add_rec nbv dpt tabv]. rewrite depth_max_D.
  destruct (Z.ltb_spec (Z.of_nat d) (Z.of_nat D)); [|lia].
  destruct (Z.ltb_spec nb nv); [lia|]. fold i.
  pose proof (quad_range (at_ d no)) as Hi. fold i in Hi.
  assert (G : good (S d) (8 * k + i) (br i)) by (apply K; exact Hi).
  assert (Hcode : code (S d) no = 8 * k + i) by (apply code_S; [exact Hi|split; [exact Hc|reflexivity]]).
  specialize (IH (S d) (8 * k + i) (br i) no G Hcode Hno).
  assert (Hfu : (fuel_for (S d) (br i) <= fuel)%nat).
  { unfold fuel_for, D in *. destruct (br i); lia. }
  specialize (IH Hfu). change (halfp (at_ d no)) with (at_ (S d) no).
  destruct (add_rec fuel pts nv (br i) (at_ (S d) no) no) as [b|]; cbn [bind].
  - destruct IH as (B1 & B2 & B3). exists b. auto.
  - exact IH.
Qed.

Lemma kids_upd d k br i b : kids d k br -> good (S d) (8 * k + i) b -> kids d k (upd br i b).
Proof. intros K G j Hj. unfold upd. destruct (Z.eqb_spec j i) as [->|]; [exact G|apply K; exact Hj]. Qed.

Lemma flat_add br i b no : 0 <= i < 8 -> Permutation (contents b) (no :: contents (br i)) ->
  Permutation (flat (upd br i b)) (no :: flat br).
Proof.
  intros Hi P. destruct (flat_split br i Hi) as (rest & P1 & P2 & _).
  rewrite (P2 b), P, P1. reflexivity.
Qed.

Lemma crowd_kid br i no : 0 <= i < 8 -> crowd no (contents (br i)) <= crowd no (flat br).
Proof.
  intros Hi. destruct (flat_split br i Hi) as (rest & P1 & _). rewrite (crowd_perm _ _ _ P1), crowd_app.
  pose proof (crowd_nonneg no rest). lia.
Qed.

Lemma firstn_snoc A (l : list A) i x : nth_error l i = Some x -> firstn (S i) l = firstn i l ++ [x].
Proof.
  revert l. induction i as [|i IH]; intros [|a l] H; cbn in H; try discriminate.
  - injection H as ->. reflexivity.
  - cbn [firstn app]. f_equal. apply IH. exact H.
Qed.

(** Distribution of the vertices of a full cell among eight new cells. *)
Lemma split_loop fuel d k cap l : add_spec fuel -> (d < D)%nat -> (2 * (D - d) <= S fuel)%nat ->
  Z.of_nat (length l) = nv -> Forall (fun x => 0 < x /\ code d x = k) l ->
  exists c, for_range 0 (nv - 1) (fun i c =>
                   x <- item (Some (cap, l)) i ;;
                   c <- add_rec (S fuel) pts nv c (rescale (Z.of_nat d) (pts x)) x ;;
                   Ret (set_nv c (nbv c - 1) (tabv c)))
      (Node (nv + 1) (Z.of_nat d) (Some (cap, l)) (fun _ => Leaf 0 (Z.of_nat d + 1) None)) = Ret c /\
    exists br, c = Node (nv + 1) (Z.of_nat d) (Some (cap, l)) br /\ kids d k br /\
      (forall i, 0 <= i < 8 -> caps (br i)) /\ Permutation (flat br) l.
Proof.
  intros IH Hd Hf Hl F. pose proof nv_pos as Hp.
  destruct (@for_range_inv _ (fun i c => exists br, c = Node (nv + 1) (Z.of_nat d) (Some (cap, l)) br /\ kids d k br /\
      (forall i, 0 <= i < 8 -> caps (br i)) /\ Permutation (flat br) (firstn (Z.to_nat i) l))
    (fun i c => x <- item (Some (cap, l)) i ;;
                c <- add_rec (S fuel) pts nv c (rescale (Z.of_nat d) (pts x)) x ;;
                Ret (set_nv c (nbv c - 1) (tabv c))) 0 (nv - 1)
    (Node (nv + 1) (Z.of_nat d) (Some (cap, l)) (fun _ => Leaf 0 (Z.of_nat d + 1) None))) as (c & Ec & br & Hc).
  - lia.
  - exists (fun _ => Leaf 0 (Z.of_nat d + 1) None). split; [reflexivity|]. split; [|split; [intros; exact I|]].
    + intros i Hi. cbn [good]. unfold D in *. split; [lia|]. split; [lia|reflexivity].
    + cbn [Z.to_nat firstn]. unfold flat. rewrite zrange07. cbn. constructor.
  - intros i c Hi (br & -> & K & C & P).
    destruct (nth_error l (Z.to_nat i)) as [x|] eqn:Ex.
    2:{ apply nth_error_None in Ex. lia. }
    assert (Hx : 0 < x /\ code d x = k) by (rewrite Forall_forall in F; apply F; eapply nth_error_In; exact Ex).
    unfold item. rewrite Ex. cbn [bind]. rewrite rescale_at.
    pose proof (add_node fuel d k (nv + 1) (Some (cap, l)) br x IH K Hd ltac:(lia) (proj2 Hx) (proj1 Hx) Hf) as A.
    pose proof (quad_range (at_ d x)) as Hq. cbv zeta in A. set (q := quad (at_ d x)) in *.
    assert (Cr : crowd x (contents (br q)) < 3 * nv).
    { pose proof (crowd_kid br q x Hq). rewrite (crowd_perm _ _ _ P) in H. pose proof (crowd_len x (firstn (Z.to_nat i) l)) as Hle.
      rewrite firstn_length in Hle. lia. }
    destruct (add_rec (S fuel) pts nv _ _ x) as [c'|].
    + destruct A as (b & -> & Gb & Pb & Cb). cbn [bind]. eexists. split; [reflexivity|]. cbn [nbv tabv set_nv].
      exists (upd br q b). split; [f_equal; lia|]. split; [apply kids_upd; assumption|]. split.
      * intros j Hj. unfold upd. destruct (Z.eqb_spec j q); [subst j; apply Cb; auto|auto].
      * rewrite (flat_add br q b x Hq Pb), P. replace (Z.to_nat (i + 1)) with (S (Z.to_nat i)) by lia.
        rewrite (firstn_snoc _ _ _ _ Ex). apply Permutation_cons_append.
    + exfalso. apply A. split; [apply C; exact Hq|exact Cr].
  - exists c. split; [exact Ec|]. exists br. destruct Hc as (-> & K & C & P). split; [reflexivity|]. split; [exact K|].
    split; [exact C|]. rewrite P. replace (Z.to_nat (nv - 1 + 1)) with (length l) by lia. rewrite firstn_all. reflexivity.
Qed.

Lemma store_inv t nb no : match store t nb no with
  | Ret t' => nb < fst t /\ Z.of_nat (length (snd t)) = nb /\ t' = (fst t, snd t ++ [no])
  | Stuck => ~ (nb < fst t /\ Z.of_nat (length (snd t)) = nb) end.
Proof.
  destruct t as [cap l]. unfold store. cbn [fst snd].
  destruct (Z.ltb_spec nb cap), (Z.eqb_spec (Z.of_nat (length l)) nb); cbn [andb]; auto; lia.
Qed.

(** Insertion in the table of a terminal cell, once the room is there. *)
Lemma leaf_store d k nb v no cap l : good d k (Leaf nb (Z.of_nat d) v) -> code d no = k -> 0 < no ->
  contents (Leaf nb (Z.of_nat d) v) = l -> nb < cap -> ((d < D)%nat -> nb < nv) ->
  good d k (Leaf (nb + 1) (Z.of_nat d) (Some (cap, l ++ [no]))) /\
  Permutation (contents (Leaf (nb + 1) (Z.of_nat d) (Some (cap, l ++ [no])))) (no :: contents (Leaf nb (Z.of_nat d) v)).
Proof.
  intros G Hc Hno El Hcap Hd. split.
  - pose proof (good_nb _ _ _ G) as Hn. rewrite El in Hn. cbn [nbv] in Hn.
    assert (F : Forall (fun x => 0 < x /\ code d x = k) l).
    { apply Forall_forall. intros x Hx. apply (good_in d k _ x G). rewrite El. exact Hx. }
    cbn [good] in *. destruct G as (_ & G2 & _). split; [reflexivity|]. split; [exact G2|].
    rewrite app_length. cbn [length]. split; [lia|]. split; [lia|]. split; [intros H; specialize (Hd H); lia|].
    apply Forall_app. split; [exact F|]. constructor; [auto|constructor].
  - rewrite El. cbn [contents]. symmetry. apply Permutation_cons_append.
Qed.

(** Room in the table of a cell with less than [nv] vertices. *)
Lemma room_spec d k nb v : good d k (Leaf nb (Z.of_nat d) v) -> nb < nv ->
  let l := contents (Leaf nb (Z.of_nat d) v) in
  match room nb v with
  | Ret t => snd t = l /\ (caps (Leaf nb (Z.of_nat d) v) -> nb < fst t /\ exactcap nv (nb + 1) (fst t))
  | Stuck => ~ caps (Leaf nb (Z.of_nat d) v)
  end.
Proof.
  intros G Hn l. pose proof (good_nb _ _ _ G) as Hl. cbn [nbv] in Hl. fold l in Hl.
  cbn [good] in G. destruct G as (_ & _ & G). unfold room. destruct (Z.eqb_spec nb 0) as [->|N0].
  - assert (l = []) by (destruct l; [reflexivity|cbn in Hl; lia]). rewrite H. cbn [fst snd]. split; [reflexivity|].
    intros _. split; [lia|]. apply exact_one. exact nv_pos.
  - destruct v as [[cap l0]|]; [|lia]. cbn [contents] in l. subst l. destruct G as (_ & G2 & G3 & G4).
    cbn [caps]. rewrite <- Hl.
    destruct (pow2b nb) eqn:Ep.
    + destruct (Z.eqb_spec nb cap); cbn [c_assert bind fst snd].
      * split; [reflexivity|]. intros C. pose proof (exact_double nv nb cap C Hn Ep). split; [lia|apply H].
      * intros C. pose proof (exact_double nv nb cap C Hn Ep). lia.
    + cbn [fst snd]. split; [reflexivity|]. intros C. apply (exact_keep nv nb cap C Hn Ep).
Qed.

Lemma add_ok : forall fuel, add_spec fuel.
Proof.
  apply (well_founded_ind lt_wf). intros fuel IH d k c no G Hc Hno Hf. pose proof nv_pos as Hp.
  destruct fuel as [|fuel]; [unfold fuel_for, D in Hf; destruct c; cbn in G; unfold D in G; lia|].
  destruct c as [nb dp v|nb dp v br].
  - pose proof (good_d _ _ _ G) as [Ed Hd]. cbn in Ed. subst dp.
    pose proof (good_nb _ _ _ G) as Hl. cbn [nbv] in Hl.
    assert (Hfin : forall t no', snd t = contents (Leaf nb (Z.of_nat d) v) -> no' = no -> ((d < D)%nat -> nb < nv) ->
      (caps (Leaf nb (Z.of_nat d) v) -> crowd no (contents (Leaf nb (Z.of_nat d) v)) < 3 * nv ->
         nb < fst t /\ exactcap nv (nb + 1) (fst t)) ->
      match (t <- store t nb no' ;; Ret (set_nv (Leaf nb (Z.of_nat d) v) (nb + 1) (Some t))) with
      | Ret c' => good d k c' /\ Permutation (contents c') (no :: contents (Leaf nb (Z.of_nat d) v)) /\
          (caps (Leaf nb (Z.of_nat d) v) -> crowd no (contents (Leaf nb (Z.of_nat d) v)) < 3 * nv -> caps c')
      | Stuck => ~ (caps (Leaf nb (Z.of_nat d) v) /\ crowd no (contents (Leaf nb (Z.of_nat d) v)) < 3 * nv)
      end).
    { intros t no' Es -> Hd' Hx. pose proof (store_inv t nb no) as S. destruct (store t nb no) as [t'|]; cbn [bind].
      - destruct S as (S1 & S2 & ->). cbn [set_nv].
        destruct (leaf_store d k nb v no (fst t) (snd t) G Hc Hno (eq_sym Es) S1 Hd') as [A B].
        split; [exact A|]. split; [exact B|]. intros C1 C2. cbn [caps]. rewrite app_length. cbn [length].
        replace (Z.of_nat (length (snd t) + 1)) with (nb + 1) by (rewrite <- S2; lia). apply Hx; assumption.
      - intros [C1 C2]. apply S. destruct (Hx C1 C2) as [X1 _]. split; [exact X1|]. rewrite Es. lia. }
    cbn [add_rec nbv dpt tabv]. rewrite depth_max_D.
    destruct (Z.ltb_spec (Z.of_nat d) (Z.of_nat D)) as [Hlt|Hge].
    + destruct (Z.ltb_spec nb nv) as [Hn|Hn].
      * pose proof (room_spec d k nb v G Hn) as R. cbv zeta in R. destruct (room nb v) as [t|]; cbn [bind].
        -- destruct R as [R1 R2]. apply Hfin; auto.
        -- intros [C _]. contradiction.
      * assert (En : nb = nv).
        { pose proof G as G'. cbn [good] in G'. destruct G' as (_ & _ & G3). destruct v as [[cap l]|]; [|lia].
          destruct G3 as (_ & _ & G4 & _). specialize (G4 ltac:(lia)). lia. }
        rewrite En, Z.eqb_refl. rewrite En in G, Hl. destruct v as [[cap l]|].
        2:{ cbn in G. lia. }
        cbn [contents] in Hl |- *. cbn [good] in G. destruct G as (_ & _ & _ & G2 & _ & F).
        destruct fuel as [|fuel]; [unfold fuel_for, D in *; lia|].
        assert (Hf' : (2 * (D - d) <= S fuel)%nat) by (unfold fuel_for in Hf; lia).
        destruct (split_loop fuel d k cap l (IH fuel ltac:(lia)) ltac:(lia) Hf' ltac:(lia) F) as (c1 & E1 & br & Ec1 & K & C & P).
        match goal with |- context [for_range ?a ?b ?f ?s] => replace (for_range a b f s) with (Ret c1) by (symmetry; exact E1) end.
        subst c1. cbn [bind].
        pose proof (add_node fuel d k (nv + 1) (Some (cap, l)) br no (IH fuel ltac:(lia)) K ltac:(lia) ltac:(lia) Hc Hno Hf') as A.
        pose proof (quad_range (at_ d no)) as Hq. cbv zeta in A. set (q := quad (at_ d no)) in *.
        assert (Cr : crowd no (contents (br q)) < 3 * nv).
        { pose proof (crowd_kid br q no Hq) as H. rewrite (crowd_perm _ _ _ P) in H. pose proof (crowd_len no l). lia. }
        destruct (add_rec (S fuel) pts nv _ _ no) as [c'|].
        2:{ exfalso. apply A. split; [apply C; exact Hq|exact Cr]. }
        destruct A as (b & -> & Gb & Pb & Cb). cbn [bind set_nv nbv].
        pose proof (flat_add br q b no Hq Pb) as Pf. rewrite P in Pf.
        split; [|split].
        -- cbn [good]. split; [reflexivity|]. split; [lia|]. split; [reflexivity|].
           rewrite (Permutation_length Pf). cbn [length]. split; [lia|]. split; [lia|]. apply kids_upd; assumption.
        -- exact Pf.
        -- intros _ _ j Hj. cbn [caps]. unfold upd. destruct (Z.eqb_spec j q); [subst j; apply Cb; auto|auto].
    + assert (d = D) by lia. subst d.
      assert (Cl : crowd no (contents (Leaf nb (Z.of_nat D) v)) = nb).
      { rewrite Hl. unfold crowd. f_equal.
        assert (Fa : forall y, In y (contents (Leaf nb (Z.of_nat D) v)) -> (code D y =? code D no) = true).
        { intros y Hy. apply Z.eqb_eq. rewrite Hc. apply (good_in D k _ y G Hy). }
        clear - Fa. induction (contents _) as [|a l IHl]; [reflexivity|]. cbn [filter].
        rewrite (Fa a (or_introl eq_refl)). cbn [length]. f_equal. apply IHl. intros y Hy. apply Fa. right. exact Hy. }
      destruct (Z.ltb_spec nb nv) as [Hn|Hn].
      * pose proof (room_spec D k nb v G Hn) as R. cbv zeta in R. destruct (room nb v) as [t|]; cbn [bind].
        -- destruct R as [R1 R2]. apply Hfin; auto.
        -- intros [C _]. contradiction.
      * destruct v as [[cap l]|]; [|cbn in G; lia]. cbn [contents] in Hl, Cl, Hfin |- *.
        destruct (Z.eqb_spec (nb mod nv) 0) as [Hm|Hm].
        -- destruct (Z.eqb_spec nb cap) as [Ecap|Ncap]; cbn [c_assert bind].
           ++ apply Hfin; [reflexivity|reflexivity|lia|]. intros C1 C2. cbn [caps] in C1. rewrite <- Hl in C1. rewrite Cl in C2. cbn [fst].
              destruct (exact_step E nb cap HE C1 ltac:(unfold nv in *; lia) Hm) as [X1 X2]. unfold nv in *. split; [lia|exact X2].
           ++ intros [C1 C2]. cbn [caps] in C1. rewrite <- Hl in C1. rewrite Cl in C2.
              destruct (exact_step E nb cap HE C1 ltac:(unfold nv in *; lia) Hm) as [X1 X2]. lia.
        -- cbn [bind]. apply Hfin; [reflexivity|reflexivity|lia|]. intros C1 C2. cbn [caps] in C1. rewrite <- Hl in C1. rewrite Cl in C2. cbn [fst].
           apply (exact_rest nv nb cap Hp C1 ltac:(lia) Hm).
  - pose proof G as G'. cbn [good] in G'. destruct G' as (-> & Hd & -> & Hnb & Hgt & K).
    assert (Hf' : (2 * (D - d) <= S fuel)%nat) by (unfold fuel_for in Hf; lia).
    pose proof (add_node fuel d k nb None br no (IH fuel ltac:(lia)) K Hd Hgt Hc Hno Hf') as A.
    pose proof (quad_range (at_ d no)) as Hq. cbv zeta in A. set (q := quad (at_ d no)) in *.
    change (contents (Node nb (Z.of_nat d) None br)) with (flat br).
    pose proof (crowd_kid br q no Hq) as Hk.
    destruct (add_rec (S fuel) pts nv _ _ no) as [c'|].
    + destruct A as (b & -> & Gb & Pb & Cb). pose proof (flat_add br q b no Hq Pb) as Pf. split; [|split].
      * cbn [good]. split; [reflexivity|]. split; [exact Hd|]. split; [reflexivity|].
        rewrite (Permutation_length Pf). cbn [length]. split; [lia|]. split; [lia|]. apply kids_upd; assumption.
      * exact Pf.
      * intros C1 C2 j Hj. cbn [caps] in C1. unfold upd. destruct (Z.eqb_spec j q); [subst j; apply Cb; [auto|lia]|auto].
    + intros [C1 C2]. apply A. split; [apply C1; exact Hq|lia].
Qed.

(** ** Deletion *)

Lemma find_no_ok l no : match find_no l no with
  | Some i => (i < length l)%nat /\ Permutation l (no :: cut l i)
  | None => ~ In no l end.
Proof.
  induction l as [|a l IH]; cbn [find_no]; [intros []|].
  destruct (Z.eqb_spec a no) as [->|N].
  - cbn. split; [lia|reflexivity].
  - destruct (find_no l no) as [i|]; cbn [option_map].
    + destruct IH as [H P]. cbn [length]. split; [lia|]. unfold cut in *. cbn [firstn skipn app].
      rewrite P at 1. apply perm_swap.
    + intros [|]; contradiction.
Qed.

Definition removed (no : Z) (l l' : list Z) : Prop :=
  (In no l /\ Permutation l (no :: l')) \/ (~ In no l /\ Permutation l l').

Lemma removed_len no l l' : removed no l l' ->
  (In no l /\ Z.of_nat (length l') = Z.of_nat (length l) - 1) \/ (~ In no l /\ length l' = length l).
Proof.
  intros [[H P]|[H P]]; [left|right]; (split; [exact H|]); apply Permutation_length in P; cbn in P; lia.
Qed.

Lemma forallb_pos l : (forall x, In x l -> 0 < x) -> forallb (fun x => 0 <? x) l = true.
Proof. intros H. apply forallb_forall. intros x Hx. specialize (H x Hx). lia. Qed.

Lemma zr_snoc lo hi : lo <= hi + 1 -> zrange lo (hi + 1) = zrange lo hi ++ [hi + 1].
Proof.
  intros H. unfold zrange. replace (Z.to_nat (hi + 1 - lo + 1)) with (S (Z.to_nat (hi - lo + 1))) by lia.
  rewrite seq_S, map_app. cbn [map]. f_equal. f_equal. lia.
Qed.

Lemma merge_ok d k br : kids d k br -> (d < D)%nat -> Z.of_nat (length (flat br)) = nv ->
  merge nv nv (Z.of_nat d) br = Ret (Leaf nv (Z.of_nat d) (Some (nv, flat br))).
Proof.
  intros K Hd Hl. unfold merge. rewrite Z.eqb_refl. cbn [c_assert bind].
  destruct (@for_range_inv _ (fun i l => l = flat_map (fun j => contents (br j)) (zrange 0 (i - 1)))
     (fun i l => l <- merge_rec nv (br i) l ;; _ <- free_rec nv (br i) ;; Ret l) 0 7 []) as (l & El & ->).
  - lia.
  - reflexivity.
  - intros i l Hi ->. exists (flat_map (fun j => contents (br j)) (zrange 0 (i + 1 - 1))). split; [|reflexivity].
    assert (G : good (S d) (8 * k + i) (br i)) by (apply K; lia).
    pose proof (good_nb _ _ _ G) as Hn.
    assert (Hsum : Z.of_nat (length (flat_map (fun j => contents (br j)) (zrange 0 (i - 1)))) + nbv (br i) <= nv).
    { rewrite <- Hl, Hn. unfold flat.
      assert (Es : exists r, zrange 0 7 = zrange 0 (i - 1) ++ i :: r).
      { assert (Hc : i = 0 \/ i = 1 \/ i = 2 \/ i = 3 \/ i = 4 \/ i = 5 \/ i = 6 \/ i = 7) by lia.
        clear - Hc. intuition subst; rewrite zrange07; cbv [zrange Z.sub Z.opp Z.add Z.pos_sub Z.succ_double Z.pred_double Z.double Z.to_nat Pos.to_nat Pos.iter_op Nat.add seq map Z.of_nat Pos.of_succ_nat Pos.succ Pos.add app]; eexists; reflexivity. }
      destruct Es as (r & Es). rewrite Es, flat_map_app. cbn [flat_map]. rewrite !app_length. lia. }
    assert (Hfree : free_rec nv (br i) = Ret tt).
    { destruct (br i) as [nb dp v|nb dp v b']; cbn [free_rec nbv dpt tabv] in *.
      - destruct (Z.ltb_spec nv nb); [lia|]. cbn [andb]. destruct (0 <? nb); [|reflexivity].
        destruct (Z.leb_spec nb nv); [reflexivity|lia].
      - destruct (Z.ltb_spec nv nb); [lia|]. cbn [andb]. destruct (0 <? nb); [|reflexivity].
        destruct (Z.leb_spec nb nv); [reflexivity|lia]. }
    replace (i + 1 - 1) with ((i - 1) + 1) by lia. rewrite zr_snoc by lia. replace (i - 1 + 1) with i by lia.
    rewrite flat_map_app. cbn [flat_map]. rewrite app_nil_r.
    assert (Hm : merge_rec nv (br i) (flat_map (fun j => contents (br j)) (zrange 0 (i - 1))) =
                 Ret (flat_map (fun j => contents (br j)) (zrange 0 (i - 1)) ++ contents (br i))).
    { assert (Hpos : forall x, In x (flat_map (fun j => contents (br j)) (zrange 0 (i - 1)) ++ contents (br i)) -> 0 < x).
      { intros x Hx. apply in_app_or in Hx. destruct Hx as [Hx|Hx].
        - apply in_flat_map in Hx. destruct Hx as (j & Hj & Hx). apply in_zrange in Hj.
          apply (good_in (S d) (8 * k + j) (br j) x (K j ltac:(lia)) Hx).
        - apply (good_in _ _ _ x G Hx). }
      destruct (br i) as [nb dp v|nb dp v b'].
      - cbn [merge_rec tabv nbv contents] in *. destruct v as [[cap l]|].
        + cbn [nbv contents] in *. destruct (Z.leb_spec (Z.of_nat (length (flat_map (fun j => contents (br j)) (zrange 0 (i - 1)))) + nb) nv); [|lia].
          cbn [c_assert bind]. rewrite Hn, Z.eqb_refl. cbn [c_assert bind]. rewrite (forallb_pos _ Hpos). reflexivity.
        + rewrite app_nil_r. reflexivity.
      - exfalso. cbn [good nbv] in *. destruct G as (_ & _ & _ & _ & G & _). lia. }
    rewrite Hm. cbn [bind]. rewrite Hfree. reflexivity.
  - rewrite El. cbn [bind]. reflexivity.
Qed.

Lemma flat_del br i b no l : 0 <= i < 8 -> removed no (contents (br i)) (contents b) ->
  (forall j, 0 <= j < 8 -> j <> i -> ~ In no (contents (br j))) -> flat br = l ->
  removed no l (flat (upd br i b)).
Proof.
  intros Hi R Ho <-. destruct (flat_split br i Hi) as (rest & P1 & P2 & P3).
  assert (Hrest : ~ In no rest) by (intros Hx; destruct (P3 no Hx) as (j & Hj & Nj & Hin); exact (Ho j Hj Nj Hin)).
  destruct R as [[Hin P]|[Hin P]]; [left|right].
  - split; [rewrite P1; apply in_or_app; left; exact Hin|]. rewrite P1, (P2 b), P. reflexivity.
  - split; [rewrite P1; intros H; apply in_app_or in H; destruct H; contradiction|]. rewrite P1, (P2 b), P. reflexivity.
Qed.

Lemma cut_len l i : (i < length l)%nat -> S (length (cut l i)) = length l.
Proof. intros H. unfold cut. rewrite app_length, firstn_length, skipn_length. lia. Qed.

Lemma cut_in l i x : In x (cut l i) -> In x l.
Proof.
  intros H. unfold cut in H. rewrite <- (firstn_skipn i l). apply in_app_or in H. apply in_or_app. destruct H as [H|H]; [left; exact H|right].
  revert l H. induction i as [|i IH]; intros [|a l] H; cbn in *; auto.
Qed.

Lemma del_ok : forall c d k no, good d k c -> code d no = k ->
  exists c', del_rec nv c (at_ d no) no = Ret c' /\ good d k c' /\ removed no (contents c) (contents c') /\ (caps c -> caps c').
Proof.
  pose proof nv_pos as Hp.
  induction c as [nb dp v|nb dp v br IH]; intros d k no G Hc.
  - cbn [del_rec tabv]. destruct v as [[cap l]|].
    2:{ cbn [good] in G. destruct G as (Ed & Hd & E0). destruct (Z.eqb_spec nb (nv + 1)); [lia|].
        exists (Leaf nb dp None). split; [reflexivity|]. split; [cbn; auto|]. split; [right; split; [intros []|reflexivity]|auto]. }
    pose proof G as G'. cbn [good] in G'. destruct G' as (Ed & Hd & En & G2 & G3 & F). unfold del_tab. cbn [nbv].
    replace (Z.to_nat nb) with (length l) by lia. rewrite firstn_all.
    pose proof (find_no_ok l no) as Hf. destruct (find_no l no) as [i|].
    2:{ exists (Leaf nb dp (Some (cap, l))). split; [reflexivity|]. split; [exact G|]. split; [right; split; [exact Hf|reflexivity]|auto]. }
    destruct Hf as [Hi P]. unfold del_item.
    destruct (Z.ltb_spec (Z.of_nat i) nb); [|lia]. cbn [c_assert bind]. rewrite <- En, Z.eqb_refl.
    rewrite forallb_pos by (intros x Hx; rewrite Forall_forall in F; apply F; exact Hx). cbn [andb c_assert bind].
    pose proof (cut_len l i Hi) as Hcl.
    assert (Fc : Forall (fun x => 0 < x /\ code d x = k) (cut l i)).
    { apply Forall_forall. intros x Hx. rewrite Forall_forall in F. apply F. eapply cut_in. exact Hx. }
    assert (R : removed no l (cut l i)).
    { left. split; [|exact P]. rewrite P. left. reflexivity. }
    destruct (Z.eq_dec nb 1) as [->|N1].
    + replace (pow2b (1 - 1) && (0 <? 1 - 1)) with false by reflexivity. cbn [bind Z.sub Z.add Z.opp Z.pos_sub Z.eqb set_nv].
      eexists. split; [reflexivity|]. split; [cbn; auto|]. split; [|intros _; exact I].
      cbn [contents]. destruct (cut l i); [exact R|cbn in Hcl; lia].
    + assert (Hx : exists cap', (if pow2b (nb - 1) && (0 <? nb - 1) then Ret (nb - 1, (nb - 1, cut l i)) else Ret (nb - 1, (cap, cut l i)))
                   = Ret (nb - 1, (cap', cut l i)) /\ nb - 1 <= cap' /\ (exactcap nv nb cap -> exactcap nv (nb - 1) cap')).
      { destruct (Z.ltb_spec 0 (nb - 1)); [|lia]. rewrite andb_true_r.
        destruct (pow2b (nb - 1)) eqn:Ep; [exists (nb - 1)|exists cap]; (split; [reflexivity|]; split; [lia|]); intros X;
          pose proof (exact_del E nb cap HE X ltac:(lia)) as X'; rewrite Ep in X'; exact X'. }
      destruct Hx as (cap' & Ex & Hcap & Hxx). rewrite Ex. cbn [bind].
      destruct (Z.eqb_spec (nb - 1) 0); [lia|]. cbn [set_nv]. eexists. split; [reflexivity|]. split; [|split].
      * cbn [good]. split; [exact Ed|]. split; [exact Hd|]. split; [lia|]. split; [lia|]. split; [intros H'; specialize (G3 H'); lia|exact Fc].
      * exact R.
      * cbn [caps]. intros X. rewrite <- En in X. replace (Z.of_nat (length (cut l i))) with (nb - 1) by lia. apply Hxx. exact X.
  - pose proof G as G'. cbn [good] in G'. destruct G' as (-> & Hd & -> & Hnb & Hgt & K).
    cbn [del_rec tabv]. pose proof (quad_range (at_ d no)) as Hq. set (q := quad (at_ d no)) in *.
    assert (Hcode : code (S d) no = 8 * k + q) by (apply code_S; [exact Hq|split; [exact Hc|reflexivity]]).
    change (halfp (at_ d no)) with (at_ (S d) no).
    destruct (IH q (S d) (8 * k + q) no (K q Hq) Hcode) as (b & Eb & Gb & Rb & Cb). rewrite Eb. cbn [bind].
    assert (Oth : forall j, 0 <= j < 8 -> j <> q -> ~ In no (contents (br j))).
    { intros j Hj Nj Hin. destruct (good_in (S d) (8 * k + j) (br j) no (K j Hj) Hin) as [_ Ec]. lia. }
    change (contents (Node nb (Z.of_nat d) None br)) with (flat br).
    pose proof (flat_del br q b no (flat br) Hq Rb Oth eq_refl) as Rf.
    pose proof (kids_upd d k br q b K Gb) as K'.
    pose proof (good_nb _ _ _ Gb) as Nb. pose proof (good_nb _ _ _ (K q Hq)) as No.
    pose proof (removed_len _ _ _ Rb) as Lb. pose proof (removed_len _ _ _ Rf) as Lf.
    assert (Hinq : In no (flat br) <-> In no (contents (br q))).
    { rewrite flat_in. split; [intros (j & Hj & Hin)|intros Hin; exists q; auto].
      destruct (Z.eq_dec j q) as [->|Nj]; [exact Hin|destruct (Oth j Hj Nj Hin)]. }
    assert (Cn : caps (Node nb (Z.of_nat d) None br) -> forall j, 0 <= j < 8 -> caps (upd br q b j)).
    { intros C j Hj. cbn [caps] in C. unfold upd. destruct (Z.eqb_spec j q); [apply Cb; apply C; exact Hq|apply C; exact Hj]. }
    assert (Keep : forall nb', nb' = Z.of_nat (length (flat (upd br q b))) -> nv < nb' ->
              good d k (Node nb' (Z.of_nat d) None (upd br q b))).
    { intros nb' E1 E2. cbn [good]. split; [reflexivity|]. split; [exact Hd|]. split; [reflexivity|]. split; [exact E1|]. split; [exact E2|exact K']. }
    destruct (Z.eqb_spec nb (nv + 1)) as [En|En].
    + destruct (Z.ltb_spec (nbv b) (nbv (br q))) as [Hlt|Hge].
      * assert (Hin : In no (contents (br q))) by (destruct Lb as [[? _]|[_ ?]]; [assumption|lia]).
        assert (Hlen : Z.of_nat (length (flat (upd br q b))) = nv).
        { destruct Lf as [[_ L]|[N _]]; [lia|exfalso; apply N; apply Hinq; exact Hin]. }
        replace (nb - 1) with nv by lia. rewrite (merge_ok d k (upd br q b) K' Hd Hlen).
        eexists. split; [reflexivity|]. split; [|split].
        -- cbn [good]. split; [reflexivity|]. split; [lia|]. split; [lia|]. split; [lia|]. split; [lia|].
           apply Forall_forall. intros x Hx. apply flat_in in Hx. destruct Hx as (j & Hj & Hx).
           destruct (good_in _ _ _ x (K' j Hj) Hx) as [X1 X2]. split; [exact X1|]. apply code_S in X2; [apply X2|exact Hj].
        -- exact Rf.
        -- intros _. cbn [caps]. rewrite Hlen. apply exact_full. exact HE.
      * assert (Hin : ~ In no (contents (br q))) by (destruct Lb as [[_ ?]|[? _]]; [lia|assumption]).
        assert (Hlen : nb = Z.of_nat (length (flat (upd br q b)))).
        { destruct Lf as [[N _]|[_ L]]; [exfalso; apply Hin; apply Hinq; exact N|lia]. }
        eexists. split; [reflexivity|]. split; [apply Keep; lia|]. split; [exact Rf|exact Cn].
    + destruct (Z.leb_spec (nbv (br q)) (nbv b)) as [Hle|Hlt].
      * assert (Hin : ~ In no (contents (br q))) by (destruct Lb as [[_ ?]|[? _]]; [lia|assumption]).
        assert (Hlen : nb = Z.of_nat (length (flat (upd br q b)))).
        { destruct Lf as [[N _]|[_ L]]; [exfalso; apply Hin; apply Hinq; exact N|lia]. }
        eexists. split; [reflexivity|]. split; [apply Keep; lia|]. split; [exact Rf|exact Cn].
      * assert (Hin : In no (contents (br q))) by (destruct Lb as [[? _]|[_ ?]]; [assumption|lia]).
        assert (Hlen : nb - 1 = Z.of_nat (length (flat (upd br q b)))).
        { destruct Lf as [[_ L]|[N _]]; [lia|exfalso; apply N; apply Hinq; exact Hin]. }
        eexists. split; [reflexivity|]. split; [apply Keep; lia|]. split; [exact Rf|exact Cn].
Qed.

End Tree.
