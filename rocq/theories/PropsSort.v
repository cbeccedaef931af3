(** C27 (index sort) and C34 (byte order). *)
From Coq Require Import ZArith List Lia Bool Permutation Sorting.
From Verif Require Import CBase SortModel.
Import ListNotations.
Open Scope Z_scope.

(** The values of an array as a list. *)
Definition contents {A} (n : Z) (a : arr A) : list A :=
  map (fun i => aget a (Z.of_nat i)) (seq 0 (Z.to_nat n)).

Definition ints (n : Z) : list Z := map Z.of_nat (seq 0 (Z.to_nat n)).

Lemma contents_ext A n (a b : arr A) :
  (forall i, 0 <= i < n -> aget a i = aget b i) -> contents n a = contents n b.
Proof.
  intros H. unfold contents. apply map_ext_in. intros i Hi. apply in_seq in Hi. apply H. lia.
Qed.

Lemma contents_length A n (a : arr A) : length (contents n a) = Z.to_nat n.
Proof. unfold contents. now rewrite map_length, seq_length. Qed.

Lemma contents_nth A n (a : arr A) d i : 0 <= i < n -> nth (Z.to_nat i) (contents n a) d = aget a i.
Proof.
  intros H. unfold contents.
  rewrite nth_indep with (d' := (fun i => aget a (Z.of_nat i)) O) by (rewrite map_length, seq_length; lia).
  rewrite (map_nth (fun i => aget a (Z.of_nat i))). rewrite seq_nth by lia. f_equal. lia.
Qed.

Lemma contents_nth' A n (a : arr A) d k : Z.of_nat k < n -> nth k (contents n a) d = aget a (Z.of_nat k).
Proof. intros H. rewrite <- (contents_nth A n a d (Z.of_nat k)) by lia. now rewrite Nat2Z.id. Qed.

(** Swapping two entries permutes. *)
Lemma perm_swap_arr n (a : arr Z) i j :
  0 <= i < n -> 0 <= j < n -> i <> j ->
  Permutation (contents n a) (contents n (mkArr (alen a) (upd (upd (aget a) i (aget a j)) j (aget a i)))).
Proof.
  intros Hi Hj Hij.
  apply Permutation_nth with (d := 0). rewrite !contents_length. split; [reflexivity|].
  exists (fun k => if Nat.eqb k (Z.to_nat i) then Z.to_nat j else if Nat.eqb k (Z.to_nat j) then Z.to_nat i else k).
  split; [|split].
  - intros k Hk. destruct (Nat.eqb_spec k (Z.to_nat i)); [lia|]. destruct (Nat.eqb_spec k (Z.to_nat j)); lia.
  - intros x y Hx Hy.
    destruct (Nat.eqb_spec x (Z.to_nat i)), (Nat.eqb_spec y (Z.to_nat i)),
      (Nat.eqb_spec x (Z.to_nat j)), (Nat.eqb_spec y (Z.to_nat j)); lia.
  - intros x Hx. rewrite !contents_nth'; [|destruct (Nat.eqb_spec x (Z.to_nat i)); [lia|]; destruct (Nat.eqb_spec x (Z.to_nat j)); lia|lia].
    cbn [aget].
    destruct (Nat.eqb_spec x (Z.to_nat i)) as [E|E].
    + subst. rewrite !Z2Nat.id by lia. rewrite upd_other by lia. now rewrite upd_same.
    + destruct (Nat.eqb_spec x (Z.to_nat j)) as [E'|E'].
      * subst. rewrite !Z2Nat.id by lia. now rewrite upd_same.
      * rewrite !upd_other by lia. reflexivity.
Qed.

Section S.
Variable V : Type.
Variable gtb : V -> V -> bool.
(** [x <= y] is [not (x > y)]: a total preorder (doubles without NaN). *)
Definition lev x y := gtb x y = false.
Hypothesis lev_trans : forall x y z, lev x y -> lev y z -> lev x z.
Hypothesis gtb_asym : forall x y, gtb x y = true -> lev y x.
Lemma lev_refl x : lev x x.
Proof. unfold lev. destruct (gtb x x) eqn:E; [|reflexivity]. pose proof (gtb_asym _ _ E) as F. unfold lev in F. congruence. Qed.

Variable n : Z.
Variable val : arr V.
Hypothesis Hn : 0 <= n.
Hypothesis Hval : n <= alen val.

Let P (pm : arr Z) : Prop := n <= alen pm /\ Permutation (ints n) (contents n pm).

Lemma P_range pm i : P pm -> 0 <= i < n -> 0 <= aget pm i < n.
Proof.
  intros [_ H] Hi.
  assert (In (aget pm i) (contents n pm)).
  { rewrite <- (contents_nth Z n pm 0 i Hi). apply nth_In. rewrite contents_length. lia. }
  eapply Permutation_in in H0; [|symmetry; exact H].
  unfold ints in H0. apply in_map_iff in H0. destruct H0 as [k [E Hk]]. apply in_seq in Hk. lia.
Qed.

Let vv (pm : arr Z) (i : Z) : V := aget val (aget pm i).

Lemma nsort_ok pm :
  n <= alen pm ->
  exists pm', nsort gtb n val pm = Ret pm' /\ P pm' /\ alen pm' = alen pm /\
    (forall i j, 0 <= i <= j -> j < n -> lev (vv pm' i) (vv pm' j)) /\
    (forall i, n <= i -> aget pm' i = aget pm i).
Proof.
  intros Hp. unfold nsort.
  destruct (@for_range_inv _ (fun i p => alen p = alen pm /\ (forall k, 0 <= k < i -> aget p k = k)
      /\ (forall k, n <= k -> aget p k = aget pm k))
     (fun i perm => wr perm i i) 0 (n-1) pm) as [p0 [E0 [L0 [H0 K0]]]].
  { lia. } { repeat split; auto. lia. }
  { intros i s Hi [L [H K]]. rewrite wr_ok by lia. eexists. split; [reflexivity|]. cbn [alen aget].
    split; [exact L|]. split; intros k Hk.
    - destruct (Z.eq_dec k i); [subst; apply upd_same | rewrite upd_other by lia; apply H; lia].
    - rewrite upd_other by lia; auto. }
  rewrite E0. cbn [bind].
  assert (P0 : P p0).
  { split; [lia|]. unfold ints, contents. apply Permutation_refl'.
    apply map_ext_in. intros a Ha. apply in_seq in Ha. rewrite H0 by lia. reflexivity. }
  destruct (@for_range_inv _ (fun i p => alen p = alen pm /\ P p /\ (forall k, n <= k -> aget p k = aget pm k) /\
       (forall a b, 0 <= a < i -> a <= b < n -> lev (vv p a) (vv p b)))
     (fun i perm => for_range (i + 1) (n - 1) (nsort_inner gtb val i) perm) 0 (n-1) p0)
    as [p1 [E1 [L1 [P1 [K1 H1]]]]].
  { lia. } { repeat split; try apply P0; auto. lia. }
  2:{ exists p1. repeat split; auto; try apply P1. intros i j Hi Hj. apply H1; lia. }
  intros i p Hi [L [Pp [K H]]].
  destruct (@for_range_inv _ (fun j q => alen q = alen pm /\ P q /\ (forall k, n <= k -> aget q k = aget pm k) /\
       (forall a b, 0 <= a < i -> a <= b < n -> lev (vv q a) (vv q b)) /\
       (forall b, i <= b < j -> lev (vv q i) (vv q b)))
     (nsort_inner gtb val i) (i+1) (n-1) p) as [q [E [Lq [Pq [Kq [Hq Hi']]]]]].
  { lia. }
  { repeat split; try apply Pp; auto. intros b Hb. replace b with i by lia. apply lev_refl. }
  2:{ exists q. split; [exact E|]. repeat split; try apply Pq; auto.
      intros a b Ha Hb. destruct (Z.eq_dec a i); [subst; apply Hi'; lia | apply Hq; lia]. }
  clear p L Pp K H.
  intros j q Hj [L [Pq [K [H Hb]]]].
  unfold nsort_inner.
  assert (A1 := P_range q i Pq ltac:(lia)). assert (A2 := P_range q j Pq ltac:(lia)).
  destruct Pq as [Lq Pq0]. rewrite rd_ok by lia. cbn [bind]. rewrite rd_ok by lia. cbn [bind].
  rewrite rd_ok by lia. cbn [bind]. rewrite rd_ok by lia. cbn [bind].
  destruct (gtb (aget val (aget q i)) (aget val (aget q j))) eqn:G.
  - rewrite wr_ok by lia. cbn [bind]. rewrite wr_ok by (cbn [alen]; lia). cbn [alen].
    eexists. split; [reflexivity|]. cbn [alen].
    set (q' := mkArr _ _).
    assert (Gi : aget q' i = aget q j).
    { subst q'. cbn [aget]. rewrite upd_other by lia. apply upd_same. }
    assert (Gj : aget q' j = aget q i).
    { subst q'. cbn [aget]. apply upd_same. }
    assert (Go : forall k, k <> i -> k <> j -> aget q' k = aget q k).
    { intros k A B. subst q'. cbn [aget]. rewrite !upd_other by lia. reflexivity. }
    split; [exact L|]. split.
    { split; [exact Lq|]. etransitivity; [exact Pq0|].
      subst q'. cbn [alen aget]. apply perm_swap_arr; lia. }
    split. { intros k Hk. rewrite Go by lia. auto. }
    split.
    { intros a b Ha Hab. unfold vv. rewrite (Go a) by lia.
      destruct (Z.eq_dec b i); [subst; rewrite Gi; apply (H a j); lia|].
      destruct (Z.eq_dec b j); [subst; rewrite Gj; apply (H a i); lia|].
      rewrite Go by lia. apply H; lia. }
    { intros b Hb'. unfold vv. rewrite Gi.
      destruct (Z.eq_dec b i); [subst; rewrite Gi; apply lev_refl|].
      destruct (Z.eq_dec b j); [subst; rewrite Gj; apply gtb_asym; exact G|].
      rewrite Go by lia. eapply lev_trans; [apply gtb_asym; exact G|]. apply Hb. lia. }
  - exists q. split; [reflexivity|]. repeat split; auto.
    intros b Hb'. destruct (Z.eq_dec b j); [subst; exact G | apply Hb; lia].
Qed.
End S.

(** ** C27 *)

(** For every length and every total preorder on the values, [MMG5_nsort]
    stays inside its arrays and returns in [perm] a permutation of 0..n-1 along
    which the values increase. *)
Theorem C27_sort : forall (V : Type) (gtb : V -> V -> bool),
  (forall x y z, gtb x y = false -> gtb y z = false -> gtb x z = false) ->
  (forall x y, gtb x y = true -> gtb y x = false) ->
  forall n val perm, 0 <= n -> n <= alen val -> n <= alen perm ->
  exists perm', nsort gtb n val perm = Ret perm' /\
    Permutation (ints n) (contents n perm') /\
    (forall i j, 0 <= i <= j -> j < n ->
       gtb (aget val (aget perm' i)) (aget val (aget perm' j)) = false).
Proof.
  intros V gtb T A n val perm Hn Hv Hp.
  destruct (nsort_ok V gtb T A n val Hn Hv perm Hp) as [p [E [[_ P] [_ [S _]]]]].
  exists p. repeat split; auto.
Qed.

(** [MMG5_nperm] applies a permutation to a strided slice and leaves the other
    entries alone. *)
Theorem C27_permute : forall (V : Type) n shift stride (val oldval : arr V) (perm : arr Z),
  0 <= n -> stride <> 0 ->
  (forall i, 0 <= i < n -> 0 <= shift + i * stride < alen val) ->
  n <= alen oldval -> n <= alen perm ->
  (forall i, 0 <= i < n -> 0 <= aget perm i < n) ->
  exists val' old', nperm n shift stride val oldval perm = Ret (val', old') /\
    (forall i, 0 <= i < n ->
       aget val' (shift + i * stride) = aget val (shift + aget perm i * stride)) /\
    (forall k, (forall i, 0 <= i < n -> k <> shift + i * stride) -> aget val' k = aget val k) /\
    alen val' = alen val.
Proof.
  intros V n shift stride val oldval perm Hn Hs Hb Ho Hp Hr. unfold nperm.
  destruct (@for_range_inv _ (fun i old => alen old = alen oldval /\ forall k, 0 <= k < i -> aget old k = aget val (shift + k * stride))
     (fun i old => x <- rd val (shift + i * stride) ;; wr old i x) 0 (n-1) oldval) as [old [E0 [L0 H0]]].
  { lia. } { split; [reflexivity|lia]. }
  { intros i s Hi [L H]. rewrite rd_ok by (apply Hb; lia). cbn [bind]. rewrite wr_ok by lia.
    eexists. split; [reflexivity|]. cbn [alen aget]. split; [exact L|].
    intros k Hk. destruct (Z.eq_dec k i); [subst; apply upd_same | rewrite upd_other by lia; apply H; lia]. }
  rewrite E0. cbn [bind].
  destruct (@for_range_inv _ (fun i v => alen v = alen val /\
       (forall k, 0 <= k < i -> aget v (shift + k * stride) = aget val (shift + aget perm k * stride)) /\
       (forall k, (forall j, 0 <= j < i -> k <> shift + j * stride) -> aget v k = aget val k))
     (fun i val => k <- rd perm i ;; x <- rd old k ;; wr val (shift + i * stride) x) 0 (n-1) val)
    as [v [E1 [L1 [H1 K1]]]].
  { lia. } { repeat split; auto. lia. }
  { intros i s Hi [L [H K]]. rewrite rd_ok by lia. cbn [bind].
    pose proof (Hr i ltac:(lia)).
    rewrite rd_ok by lia. cbn [bind]. rewrite wr_ok by (rewrite L; apply Hb; lia).
    eexists. split; [reflexivity|]. cbn [alen aget]. split; [exact L|].
    assert (HX : forall k, 0 <= k < i -> shift + k * stride <> shift + i * stride).
    { intros k Hk C. assert (C3 : k * stride = i * stride) by lia. apply Z.mul_reg_r in C3; lia. }
    split.
    - intros k Hk. destruct (Z.eq_dec k i).
      + subst. rewrite upd_same. rewrite H0 by lia. reflexivity.
      + rewrite upd_other by (apply HX; lia). apply H; lia.
    - intros k Hk. rewrite upd_other by (apply Hk; lia). apply K. intros j Hj. apply Hk. lia. }
  rewrite E1. cbn [bind]. exists v, old. split; [reflexivity|]. split; [|split].
  - intros i Hi. apply H1. lia.
  - intros k Hk. apply K1. intros j Hj. apply Hk. lia.
  - exact L1.
Qed.

(** Sorting then permuting yields the sorted values. *)
Theorem C27_sort_and_permute : forall (V : Type) (gtb : V -> V -> bool),
  (forall x y z, gtb x y = false -> gtb y z = false -> gtb x z = false) ->
  (forall x y, gtb x y = true -> gtb y x = false) ->
  forall n val oldval perm, 0 <= n -> n <= alen val -> n <= alen oldval -> n <= alen perm ->
  exists perm' val' old', nsort gtb n val perm = Ret perm' /\
    nperm n 0 1 val oldval perm' = Ret (val', old') /\
    Permutation (contents n val) (contents n val') /\
    (forall i j, 0 <= i <= j -> j < n -> gtb (aget val' i) (aget val' j) = false).
Proof.
  intros V gtb T A n val oldval perm Hn Hv Ho Hp.
  destruct (nsort_ok V gtb T A n val Hn Hv perm Hp) as [p [E [[L P] [L' [S _]]]]].
  assert (R : forall i, 0 <= i < n -> 0 <= aget p i < n).
  { intros i Hi. apply P_range with (n := n); [split; auto | exact Hi]. }
  destruct (C27_permute V n 0 1 val oldval p Hn ltac:(lia)) as [v [old [Ev [Hv' _]]]]; auto; try lia.
  exists p, v, old. split; [exact E|]. split; [exact Ev|]. split.
  - assert (Q : contents n v = map (aget val) (contents n p)).
    { unfold contents. rewrite map_map. apply map_ext_in. intros i Hi. apply in_seq in Hi.
      specialize (Hv' (Z.of_nat i) ltac:(lia)). rewrite Z.mul_1_r, Z.mul_1_r in Hv'. simpl in Hv'. exact Hv'. }
    rewrite Q. replace (contents n val) with (map (aget val) (ints n)).
    + apply Permutation_map. exact P.
    + unfold ints, contents. now rewrite map_map.
  - intros i j Hi Hj. pose proof (Hv' i ltac:(lia)). pose proof (Hv' j ltac:(lia)).
    rewrite Z.mul_1_r, Z.mul_1_r in H, H0. simpl in H, H0. rewrite H, H0. apply S; lia.
Qed.

Definition C27_vals := mkArr 4 (fun i => nth (Z.to_nat i) [30; 10; 40; 10] 0).
Example C27_case :
  match nsort Z.gtb 4 C27_vals (acalloc 4 0) with
  | Ret p => contents 4 p = [1; 3; 0; 2] | Stuck => False end.
Proof. vm_compute. reflexivity. Qed.
Example C27_case_hyps :
  (forall x y z, Z.gtb x y = false -> Z.gtb y z = false -> Z.gtb x z = false) /\
  (forall x y, Z.gtb x y = true -> Z.gtb y x = false).
Proof. split; intros; lia. Qed.
(** A column of a 3x3 matrix stored by rows: shift 1, stride 3. *)
Example C27_permute_case :
  match nperm 3 1 3 (mkArr 9 (fun i => i)) (acalloc 3 0) (mkArr 3 (fun i => (i + 1) mod 3)) with
  | Ret (v, _) => contents 9 v = [0; 4; 2; 3; 7; 5; 6; 1; 8] | Stuck => False end.
Proof. vm_compute. reflexivity. Qed.
(** With an unordered value (a NaN: every comparison is false) the first
    hypothesis fails and so does the order: [3; NaN; 1] is left unsorted. *)
Definition nan_gtb (x y : option Z) : bool :=
  match x, y with Some a, Some b => a >? b | _, _ => false end.
Example C27_nan :
  match nsort nan_gtb 3 (mkArr 3 (fun i => if i =? 0 then None else Some (3 - i))) (acalloc 3 0) with
  | Ret p => contents 3 p = [0; 2; 1] | Stuck => False end.
Proof. vm_compute. reflexivity. Qed.

(** ** C34 *)

Lemma swap4_eq a : alen a = 4 ->
  exists b, swap4 a = Ret b /\ alen b = 4 /\ forall i, 0 <= i < 4 -> aget b i = aget a (3 - i).
Proof.
  intros L. unfold swap4, acalloc. repeat (rewrite rd_ok by (cbn [alen]; lia); cbn [bind]; rewrite wr_ok by (cbn [alen]; lia); cbn [bind alen]).
  eexists. split; [reflexivity|]. split; [reflexivity|]. intros i Hi. cbn [aget].
  assert (i = 0 \/ i = 1 \/ i = 2 \/ i = 3) as [->|[->|[->| ->]]] by lia;
  repeat (rewrite upd_same || rewrite upd_other by lia); f_equal; lia.
Qed.

Lemma swap8_eq a : alen a = 8 ->
  exists b, swap8 8 a = Ret b /\ alen b = 8 /\ forall i, 0 <= i < 8 -> aget b i = aget a (7 - i).
Proof.
  intros L. unfold swap8.
  destruct (@for_range_inv _ (fun i p => alen p = 8 /\ forall k, 0 <= k < i -> aget p k = aget a (7 - k))
    (fun i p => x <- rd a (7 - i) ;; wr p i x) 0 7 (acalloc 8 0)) as [b [E [Lb H]]].
  { lia. } { split; [reflexivity|lia]. }
  { intros i s Hi [Ls H]. rewrite rd_ok by lia. cbn [bind]. rewrite wr_ok by lia. eexists. split; [reflexivity|].
    cbn [alen aget]. split; [exact Ls|]. intros k Hk.
    destruct (Z.eq_dec k i); [subst; apply upd_same|rewrite upd_other by lia; apply H; lia]. }
  exists b. split; [exact E|]. split; [exact Lb|]. intros i Hi. apply H. lia.
Qed.

Lemma value_le_ext m f g : (forall i, 0 <= i < Z.of_nat m -> f i = g i) -> value_le m f = value_le m g.
Proof.
  induction m; cbn [value_le]; intros H; [reflexivity|].
  rewrite IHm by (intros; apply H; lia). rewrite H by lia. reflexivity.
Qed.

Lemma value_le_byte m x : value_le m (fun i => byte i x) = x mod 256 ^ Z.of_nat m.
Proof.
  induction m.
  - cbn [value_le]. now rewrite Z.mod_1_r.
  - cbn [value_le]. rewrite IHm. unfold byte.
    replace (Z.of_nat (S m)) with (Z.of_nat m + 1) by lia.
    rewrite Z.pow_add_r by lia. change (256 ^ 1) with 256.
    assert (0 < 256 ^ Z.of_nat m) by (apply Z.pow_pos_nonneg; lia).
    rewrite Z.rem_mul_r by lia. ring.
Qed.

Lemma value_le_bound m f : (forall i, 0 <= i < Z.of_nat m -> 0 <= f i < 256) -> 0 <= value_le m f < 256 ^ Z.of_nat m.
Proof.
  induction m; intros H; cbn [value_le].
  - simpl. lia.
  - assert (B := IHm ltac:(intros; apply H; lia)). specialize (H (Z.of_nat m) ltac:(lia)).
    replace (Z.of_nat (S m)) with (Z.of_nat m + 1) by lia. rewrite Z.pow_add_r by lia. nia.
Qed.

(** The byte of index [k] of a word given by its bytes. *)
Lemma byte_value m f k : (forall i, 0 <= i < Z.of_nat m -> 0 <= f i < 256) -> 0 <= k < Z.of_nat m ->
  byte k (value_le m f) = f k.
Proof.
  induction m; intros H Hk; [lia|]. cbn [value_le]. unfold byte.
  assert (B := value_le_bound m f ltac:(intros; apply H; lia)).
  destruct (Z.eq_dec k (Z.of_nat m)).
  - subst k. rewrite Z.div_add by lia. rewrite Z.div_small by lia. simpl. apply Z.mod_small. apply H. lia.
  - replace (f (Z.of_nat m) * 256 ^ Z.of_nat m) with (f (Z.of_nat m) * 256 ^ (Z.of_nat m - k - 1) * 256 * 256 ^ k).
    + rewrite Z.div_add by (apply Z.pow_nonzero; lia). rewrite Z_mod_plus_full. apply IHm; [|lia]. intros; apply H; lia.
    + assert (EE : 256 ^ Z.of_nat m = 256 ^ (Z.of_nat m - k - 1 + 1 + k)) by (f_equal; lia). rewrite EE. rewrite !Z.pow_add_r by lia. ring.
Qed.

Lemma byte_shift n k x : 0 <= k < n -> byte k (x + 256 ^ n) = byte k x.
Proof.
  intros H. unfold byte. replace (256 ^ n) with (256 ^ (n - k - 1) * 256 * 256 ^ k).
  - rewrite Z.div_add by (apply Z.pow_nonzero; lia). apply Z_mod_plus_full.
  - assert (EE : 256 ^ n = 256 ^ (n - k - 1 + 1 + k)) by (f_equal; lia). rewrite EE. rewrite !Z.pow_add_r by lia. ring.
Qed.

Lemma int_of_spec (le : bool) n (a : arr Z) : 0 <= n -> (forall i, 0 <= i < n -> 0 <= aget a i < 256) ->
  forall k, 0 <= k < n -> byte k (int_of le n a) = aget a (if le then k else n - 1 - k).
Proof.
  intros Hn H k Hk. unfold int_of, unsigned_of.
  set (f := fun i => aget a (if le then i else n - 1 - i)).
  assert (Hf : forall i, 0 <= i < Z.of_nat (Z.to_nat n) -> 0 <= f i < 256).
  { intros i Hi. unfold f. destruct le; apply H; lia. }
  change (aget a (if le then k else n - 1 - k)) with (f k).
  rewrite <- (byte_value (Z.to_nat n) f k) by (auto; lia).
  destruct (_ <? _); [reflexivity|]. rewrite <- (byte_shift n) by lia. f_equal. lia.
Qed.

Lemma int_of_bytes (le : bool) n (a : arr Z) x :
  0 < n -> - (256 ^ n / 2) <= x < 256 ^ n / 2 ->
  (forall i, 0 <= i < n -> aget a i = byte (if le then i else n - 1 - i) x) -> int_of le n a = x.
Proof.
  intros Hn Hx H. unfold int_of, unsigned_of.
  rewrite value_le_ext with (g := fun i => byte i x).
  2:{ intros i Hi. destruct le; rewrite H by lia; f_equal; lia. }
  rewrite value_le_byte. rewrite Z2Nat.id by lia.
  assert (E : exists h, 256 ^ n = 2 * h).
  { exists (128 * 256 ^ (n - 1)). replace n with (1 + (n - 1)) at 1 by lia. rewrite Z.pow_add_r by lia. change (256^1) with 256. ring. }
  destruct E as [h E]. rewrite E in *. rewrite (Z.mul_comm 2 h) in *. rewrite Z.div_mul in * by lia.
  destruct (Z_lt_le_dec x 0).
  - rewrite <- (Z.mod_unique x (h*2) (-1) (x + h*2)) by lia.
    destruct (Z.ltb_spec (x + h*2) h); lia.
  - rewrite Z.mod_small by lia. destruct (Z.ltb_spec x h); lia.
Qed.

Lemma byte_range k x : 0 <= byte k x < 256.
Proof. apply Z.mod_pos_bound. lia. Qed.

(** Over a 32-bit [int] on a machine of either byte order, the conversion
    reverses the bytes and is its own inverse. *)
Theorem C34_swapbin : forall le x, - 2 ^ 31 <= x < 2 ^ 31 ->
  exists y, swapbin le x = Ret y /\
    (forall k, 0 <= k < 4 -> byte k y = byte (3 - k) x) /\
    swapbin le y = Ret x.
Proof.
  intros le x Hx. unfold swapbin.
  destruct (swap4_eq (bytes le 4 x) eq_refl) as [b [E [L H]]]. rewrite E. cbn [bind].
  assert (B : forall k, 0 <= k < 4 -> byte k (int_of le 4 b) = byte (3 - k) x).
  { intros k Hk. rewrite int_of_spec.
    - destruct le; rewrite H by lia; cbn [bytes aget]; f_equal; lia.
    - lia.
    - intros i Hi. rewrite H by lia. apply byte_range.
    - lia. }
  exists (int_of le 4 b). split; [reflexivity|]. split; [exact B|].
  destruct (swap4_eq (bytes le 4 (int_of le 4 b)) eq_refl) as [c [E' [L' H']]]. rewrite E'. cbn [bind].
  f_equal. apply int_of_bytes; [lia| |].
  - change (256 ^ 4 / 2) with (2 ^ 31). exact Hx.
  - intros i Hi. rewrite H' by lia. cbn [bytes aget]. destruct le; rewrite B by lia; f_equal; lia.
Qed.

(** The same for 64-bit integers. *)
Theorem C34_swapbin_int64 : forall le x, - 2 ^ 63 <= x < 2 ^ 63 ->
  exists y, swapbin_int le 8 x = Ret y /\
    (forall k, 0 <= k < 8 -> byte k y = byte (7 - k) x) /\
    swapbin_int le 8 y = Ret x.
Proof.
  intros le x Hx. unfold swapbin_int.
  destruct (swap8_eq (bytes le 8 x) eq_refl) as [b [E [L H]]]. rewrite E. cbn [bind].
  assert (B : forall k, 0 <= k < 8 -> byte k (int_of le 8 b) = byte (7 - k) x).
  { intros k Hk. rewrite int_of_spec.
    - destruct le; rewrite H by lia; cbn [bytes aget]; f_equal; lia.
    - lia.
    - intros i Hi. rewrite H by lia. apply byte_range.
    - lia. }
  exists (int_of le 8 b). split; [reflexivity|]. split; [exact B|].
  destruct (swap8_eq (bytes le 8 (int_of le 8 b)) eq_refl) as [c [E' [L' H']]]. rewrite E'. cbn [bind].
  f_equal. apply int_of_bytes; [lia| |].
  - change (256 ^ 8 / 2) with (2 ^ 63). exact Hx.
  - intros i Hi. rewrite H' by lia. cbn [bytes aget]. destruct le; rewrite B by lia; f_equal; lia.
Qed.

(** Floating-point words are only moved as bytes: the conversions of [float]
    and [double] reverse the bytes and are involutive on the bytes. *)
Theorem C34_float_words : forall a,
  (alen a = 4 -> exists b c, swap4 a = Ret b /\ swap4 b = Ret c /\
     contents 4 b = rev (contents 4 a) /\ contents 4 c = contents 4 a) /\
  (alen a = 8 -> exists b c, swap8 8 a = Ret b /\ swap8 8 b = Ret c /\
     contents 8 b = rev (contents 8 a) /\ contents 8 c = contents 8 a).
Proof.
  intros a. split; intros L.
  - destruct (swap4_eq a L) as [b [E [Lb H]]]. destruct (swap4_eq b Lb) as [c [E' [Lc H']]].
    exists b, c. repeat split; auto.
    + unfold contents. change (Z.to_nat 4) with 4%nat. cbn. rewrite !H by lia. reflexivity.
    + apply contents_ext. intros i Hi. rewrite H' by lia. rewrite H by lia. f_equal. lia.
  - destruct (swap8_eq a L) as [b [E [Lb H]]]. destruct (swap8_eq b Lb) as [c [E' [Lc H']]].
    exists b, c. repeat split; auto.
    + unfold contents. change (Z.to_nat 8) with 8%nat. cbn. rewrite !H by lia. reflexivity.
    + apply contents_ext. intros i Hi. rewrite H' by lia. rewrite H by lia. f_equal. lia.
Qed.

(** [MMG5_swapbin_int] moves eight bytes whatever the size of [MMG5_int]: with
    the default 32-bit [MMG5_int] it reads and writes outside the words.  (No
    function of the library calls it at this commit.) *)
Theorem C34_swapbin_int_refuted : exists size : Z,
  (size = 4 \/ size = 8) /\ forall le x, swapbin_int le size x = Stuck.
Proof. exists 4. split; [auto|]. intros. unfold swapbin_int, swap8, for_range. cbn. reflexivity. Qed.

Example C34_case : swapbin true 1 = Ret 16777216 /\ swapbin true (-2) = Ret (-16777217)
  /\ swapbin false 1 = Ret 16777216.
Proof. vm_compute. repeat split. Qed.

Print Assumptions C27_sort.
Print Assumptions C27_permute.
Print Assumptions C27_sort_and_permute.
Print Assumptions C34_swapbin.
Print Assumptions C34_swapbin_int64.
Print Assumptions C34_float_words.
Print Assumptions C34_swapbin_int_refuted.
