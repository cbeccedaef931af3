(** C24, C25: the search of close vertices. *)
From Coq Require Import ZArith QArith List Lia Bool Permutation Arith Lqa.
From Coq Require Import ZifyBool ZifyNat.
From Verif Require Import CBase Chain OctModel OctProofs PropsOct.
Import ListNotations.
Open Scope Z_scope.

Lemma Qltb_spec x y : (Qltb x y = true /\ (x < y)%Q) \/ (Qltb x y = false /\ (y <= x)%Q).
Proof.
  unfold Qltb. destruct (Qle_bool y x) eqn:Eb; [right|left]; (split; [reflexivity|]).
  - apply Qle_bool_iff. exact Eb.
  - apply Qnot_le_lt. intros H. apply Qle_bool_iff in H. congruence.
Qed.

Lemma Qltb_true x y : Qltb x y = true <-> (x < y)%Q.
Proof. destruct (Qltb_spec x y) as [[-> H]|[-> H]]; split; intros; try discriminate; auto. lra. Qed.

Lemma Qltb_false x y : Qltb x y = false <-> (y <= x)%Q.
Proof. destruct (Qltb_spec x y) as [[-> H]|[-> H]]; split; intros; try discriminate; auto. lra. Qed.

(** ** Position in the list *)

Lemma seek_ok : forall fuel l x lo hi, 0 <= lo <= hi -> hi < Z.of_nat (length l) -> hi - lo < Z.of_nat fuel ->
  exists i, seek_index fuel l x lo hi = Ret i /\
  (hi - lo < 2 -> exists y, nth_error l (Z.to_nat hi) = Some y /\ i = if Qltb y x then hi else lo) /\ (2 <= hi - lo -> i = 1).
Proof.
  induction fuel as [|fuel IH]; intros l x lo hi H1 H2 Hf; [lia|]. cbn [seek_index].
  destruct (Z.ltb_spec hi lo); [lia|].
  assert (Get : forall i, 0 <= i < Z.of_nat (length l) -> exists y, nth_error l (Z.to_nat i) = Some y /\
    match nth_error l (Z.to_nat i) with Some y => if i <? 0 then Stuck else Ret y | None => Stuck end = Ret y).
  { intros i Hi. destruct (nth_error l (Z.to_nat i)) as [y|] eqn:E; [|apply nth_error_None in E; lia].
    exists y. split; [reflexivity|]. destruct (Z.ltb_spec i 0); [lia|reflexivity]. }
  destruct (Z.ltb_spec (hi - lo) 2).
  - destruct (Get hi ltac:(lia)) as (y & Ey & ->). cbn [bind]. eexists. split; [reflexivity|]. split; [|lia].
    intros _. exists y. split; [exact Ey|reflexivity].
  - assert (Hm : lo < (lo + hi) / 2 < hi).
    { split; [apply Z.lt_le_trans with (lo + 1); [lia|]; apply Z.div_le_lower_bound; lia|apply Z.div_lt_upper_bound; lia]. }
    destruct (Get ((lo + hi) / 2) ltac:(lia)) as (y & Ey & ->). cbn [bind]. exists 1.
    split; [|split; [lia|reflexivity]].
    destruct (Qltb y x).
    + destruct (IH l x ((lo + hi) / 2) hi) as (i & -> & _); [lia|lia|lia|reflexivity].
    + destruct (IH l x lo ((lo + hi) / 2)) as (i & -> & _); [lia|lia|lia|reflexivity].
Qed.

Definition seek (l : list Q) (x : Q) (lo hi : Z) : outcome Z := seek_index (S (Z.to_nat (Z.abs (hi - lo) + 1))) l x lo hi.

Definition ordered (l : list Q) : Prop := forall i j x y, (i <= j)%nat -> nth_error l i = Some x -> nth_error l j = Some y -> (x <= y)%Q.

(** What is claimed of the position: the last value strictly smaller than [x] between
    the two bounds. *)
Definition last_smaller (l : list Q) (x : Q) (lo hi r : Z) : Prop :=
  lo <= r <= hi /\ (exists y, nth_error l (Z.to_nat r) = Some y /\ (y < x)%Q) /\
  forall i y, r < i <= hi -> nth_error l (Z.to_nat i) = Some y -> (x <= y)%Q.

(** The search always ends with a valid position; it is the claimed one between two
    adjacent positions. *)
Theorem C25_partial : forall l x lo hi, 0 <= lo <= hi -> hi < Z.of_nat (length l) -> ordered l ->
  exists r, seek l x lo hi = Ret r /\ 0 <= r < Z.of_nat (length l) /\
  (hi - lo < 2 -> (exists y, nth_error l (Z.to_nat lo) = Some y /\ (y < x)%Q) -> last_smaller l x lo hi r).
Proof.
  intros l x lo hi H1 H2 Ho. unfold seek.
  destruct (seek_ok (S (Z.to_nat (Z.abs (hi - lo) + 1))) l x lo hi H1 H2 ltac:(lia)) as (r & Er & A & B).
  exists r. split; [exact Er|]. split.
  - destruct (Z.lt_ge_cases (hi - lo) 2) as [H|H].
    + destruct (A H) as (y & _ & ->). destruct (Qltb y x); lia.
    + rewrite (B H). lia.
  - intros H (y0 & E0 & L0). destruct (A H) as (y & Ey & ->). destruct (Qltb_spec y x) as [[-> Hy]|[-> Hy]].
    + split; [lia|]. split; [exists y; auto|]. intros. lia.
    + split; [lia|]. split; [exists y0; auto|]. intros i z Hi Ez. assert (i = hi) by lia. subst i. rewrite Ey in Ez. injection Ez as <-. exact Hy.
Qed.
Print Assumptions C25_partial.

Definition list25 : list Q := [1; 2; 3; 4; 5]%Q.

Example C25_case : ordered [1; 3]%Q /\ seek [1; 3]%Q 2 0 1 = Ret 0 /\ last_smaller [1; 3]%Q 2 0 1 0.
Proof.
  split; [|split; [reflexivity|]].
  - intros i j x y H Hi Hj. destruct i as [|[|i]], j as [|[|j]]; cbn in *; try lia; try (destruct i; discriminate); try (destruct j; discriminate);
    injection Hi as <-; injection Hj as <-; lra.
  - split; [lia|]. split; [exists 1%Q; split; [reflexivity|lra]|]. intros i y Hi Ey. assert (i = 1) by lia. subst i. injection Ey as <-. lra.
Qed.

(** The values of the recursive calls are dropped: the answer is 1 in every list of
    more than two values. *)
Theorem C25_refuted : exists l x lo hi r, ordered l /\ 0 <= lo <= hi /\ hi < Z.of_nat (length l) /\
  seek l x lo hi = Ret r /\ ~ last_smaller l x lo hi r /\ last_smaller l x lo hi 3.
Proof.
  exists list25, (9 # 2)%Q, 0, 4, 1. split; [|split; [lia|]; split; [cbn; lia|]; split; [reflexivity|]; split].
  - intros i j x y H Hi Hj.
    destruct i as [|[|[|[|[|i]]]]]; cbn in Hi; try (destruct i; discriminate); injection Hi as <-;
    destruct j as [|[|[|[|[|j]]]]]; cbn in Hj; try (destruct j; discriminate); try lia; injection Hj as <-; lra.
  - intros (_ & _ & H). specialize (H 2 3%Q ltac:(lia) eq_refl). lra.
  - split; [lia|]. split; [exists 4%Q; split; [reflexivity|lra]|]. intros i y Hi Ey. assert (i = 4) by lia. subst i. injection Ey as <-. lra.
Qed.
Print Assumptions C25_refuted.

(** ** The list of cells *)

Lemma insert_ok nc l x c : Z.of_nat (length l) < nc - 3 -> exists l', insert nc l x c = Ret l' /\ Permutation l' ((x, c) :: l).
Proof.
  intros H. unfold insert. destruct (Z.ltb_spec (Z.of_nat (length l)) (nc - 3)); [|lia].
  destruct (Z.ltb_spec 0 (Z.of_nat (length l))) as [Hp|Hz].
  - destruct (seek_ok (S (length l)) (map fst l) x 0 (Z.of_nat (length l) - 1)) as (i & -> & _); [lia|rewrite map_length; lia|lia|].
    cbn [bind]. destruct (_ <? _); eexists; (split; [reflexivity|]).
    + rewrite <- (firstn_skipn (Z.to_nat (i + 1)) l) at 3. symmetry. apply Permutation_middle.
    + symmetry. apply Permutation_cons_append.
  - destruct l as [|a l]; [|cbn in Hz; lia]. eexists. split; [reflexivity|reflexivity].
Qed.

(** ** One direction *)

Definition inv1 (lo hi b0 b1 a w : Q) : Prop :=
  (0 < w /\ a < hi /\ lo < a + w /\ b0 <= a /\ a + w <= b1)%Q /\
  (a == b0 \/ a <= lo)%Q /\ (a + w == b1 \/ hi <= a + w)%Q.

Definition clo (i : Z) (lo c : Q) : Q := if i =? 0 then lo else c.
Definition chi (i : Z) (c hi : Q) : Q := if i =? 0 then c else hi.

Lemma step1 i lo hi b0 b1 a w c l a' w' : i = 0 \/ i = 1 -> inv1 lo hi b0 b1 a w ->
  (c + c == lo + hi)%Q -> (l + l == hi - lo)%Q -> (lo < hi)%Q -> ~ (b0 == c)%Q -> visited i a w c = true ->
  inter1 a w (c - l * inject_Z (1 - i)) l = (a', w') ->
  inv1 (clo i lo c) (chi i c hi) b0 b1 a' w'.
Proof.
  intros Hi ((W & H1 & H2 & H3 & H4) & Ha & Hw) Hc Hl Hlh Hb Hv He. unfold inter1 in He.
  destruct Hi as [-> | ->]; unfold visited, clo, chi in *; cbn [Z.eqb] in *.
  - change (inject_Z (1 - 0)) with 1%Q in He. apply negb_true_iff, Qltb_false in Hv.
    assert (a < c)%Q by (destruct Ha as [Ha|Ha]; [|lra]; apply Qle_lteq in Hv; destruct Hv as [Hv|Hv]; [exact Hv|exfalso; apply Hb; lra]).
    destruct (Qltb_spec (c - l * 1) a) as [[E1 X1]|[E1 X1]], (Qltb_spec (w + a) (l + (c - l * 1))) as [[E2 X2]|[E2 X2]];
      rewrite E1, E2 in He; injection He as <- <-; unfold inv1; (split; [repeat split; lra|]); (split; [|]); destruct Ha, Hw; (left; lra) || (right; lra).
  - change (inject_Z (1 - 1)) with 0%Q in He. apply Qltb_true in Hv.
    destruct (Qltb_spec (c - l * 0) a) as [[E1 X1]|[E1 X1]], (Qltb_spec (w + a) (l + (c - l * 0))) as [[E2 X2]|[E2 X2]];
      rewrite E1, E2 in He; injection He as <- <-; unfold inv1; (split; [repeat split; lra|]); (split; [|]); destruct Ha, Hw; (left; lra) || (right; lra).
Qed.

Lemma skip1 i lo hi b0 b1 a w c : i = 0 \/ i = 1 -> inv1 lo hi b0 b1 a w ->
  (c + c == lo + hi)%Q -> (lo < hi)%Q -> visited i a w c = false ->
  (chi i c hi <= b0 \/ b1 <= clo i lo c)%Q.
Proof.
  intros Hi ((W & H1 & H2 & H3 & H4) & Ha & Hw) Hc Hlh Hv.
  destruct Hi as [-> | ->]; unfold visited, clo, chi in *; cbn [Z.eqb] in *.
  - left. apply negb_false_iff, Qltb_true in Hv. destruct Ha; lra.
  - right. apply Qltb_false in Hv. destruct Hw; lra.
Qed.

(** ** Overlap of a cell with the box *)

(** The open box [(b0,b1)] meets the interior of the slab [i] of level [d]. *)
Definition overlap1 (i : Z) (d : nat) (b0 b1 : Q) : bool :=
  Qltb (inject_Z i) (b1 * inject_Z (2 ^ Z.of_nat d)) && Qltb (b0 * inject_Z (2 ^ Z.of_nat d)) (inject_Z (i + 1)).

Definition overlap (b0 b1 : pt) (t : Z * Z * Z * nat * Z * list Z) : bool :=
  let '(ix, iy, iz, d, _, _) := t in
  let '(x0, y0, z0) := b0 in let '(x1, y1, z1) := b1 in
  overlap1 ix d x0 x1 && overlap1 iy d y0 y1 && overlap1 iz d z0 z1.

Definition lo_of (i : Z) (d : nat) : Q := (inject_Z i / inject_Z (2 ^ Z.of_nat d))%Q.

Lemma pow_Qpos (d : nat) : (0 < inject_Z (2 ^ Z.of_nat d))%Q.
Proof. change 0%Q with (inject_Z 0). rewrite <- Zlt_Qlt. apply Z.pow_pos_nonneg; lia. Qed.

Lemma lo_mul i d : (lo_of i d * inject_Z (2 ^ Z.of_nat d) == inject_Z i)%Q.
Proof. unfold lo_of. pose proof (pow_Qpos d). field. lra. Qed.

Lemma overlap1_true i d b0 b1 : overlap1 i d b0 b1 = true <-> (lo_of i d < b1 /\ b0 < lo_of (i + 1) d)%Q.
Proof.
  unfold overlap1. pose proof (pow_Qpos d) as P. rewrite andb_true_iff, !Qltb_true, <- (lo_mul i d), <- (lo_mul (i + 1) d).
  split; intros [H1 H2]; split.
  - apply Qmult_lt_r in H1; assumption.
  - apply Qmult_lt_r in H2; assumption.
  - apply Qmult_lt_r; assumption.
  - apply Qmult_lt_r; assumption.
Qed.

Lemma pow_S d : (inject_Z (2 ^ Z.of_nat (S d)) == inject_Z (2 ^ Z.of_nat d) * 2)%Q.
Proof.
  replace (2 ^ Z.of_nat (S d)) with (2 ^ Z.of_nat d * 2) by (rewrite Nat2Z.inj_succ, Z.pow_succ_r by lia; lia).
  rewrite inject_Z_mult. reflexivity.
Qed.

Lemma lo_next i d : (lo_of (i + 1) d == lo_of i d + / inject_Z (2 ^ Z.of_nat d))%Q.
Proof. unfold lo_of. pose proof (pow_Qpos d). rewrite inject_Z_plus. change (inject_Z 1) with 1%Q. field. lra. Qed.

Lemma lo_double i d : (lo_of (2 * i) (S d) == lo_of i d)%Q.
Proof. unfold lo_of. pose proof (pow_Qpos d). rewrite pow_S, inject_Z_mult. change (inject_Z 2) with 2%Q. field. lra. Qed.

Lemma lo_mono i j d : i <= j -> (lo_of i d <= lo_of j d)%Q.
Proof.
  intros H. unfold lo_of. pose proof (pow_Qpos d). apply Qmult_le_compat_r; [rewrite <- Zle_Qle; exact H|].
  apply Qlt_le_weak. apply Qinv_lt_0_compat. exact H0.
Qed.

Lemma half_size_spec (d : nat) : (half_size (Z.of_nat d) * 2 == / inject_Z (2 ^ Z.of_nat d))%Q.
Proof.
  unfold half_size. replace (Z.of_nat d + 1) with (Z.of_nat (S d)) by lia. rewrite pow_S.
  pose proof (pow_Qpos d). field. lra.
Qed.

(** Terminal cells lie in the cells above them. *)
Lemma leaves_inside c : forall ix iy iz d jx jy jz e cap l, In (jx, jy, jz, e, cap, l) (leaves ix iy iz d c) ->
  (lo_of ix d <= lo_of jx e /\ lo_of (jx + 1) e <= lo_of (ix + 1) d)%Q /\
  (lo_of iy d <= lo_of jy e /\ lo_of (jy + 1) e <= lo_of (iy + 1) d)%Q /\
  (lo_of iz d <= lo_of jz e /\ lo_of (jz + 1) e <= lo_of (iz + 1) d)%Q.
Proof.
  induction c as [nb dp v|nb dp v br IH]; intros ix iy iz d jx jy jz e cap l Hin; cbn [leaves] in Hin.
  - destruct v as [[cap' l']|]; [|destruct Hin]. destruct Hin as [Eq|[]]. injection Eq as <- <- <- <- <- <-.
    repeat split; apply Qle_refl.
  - apply in_flat_map in Hin. destruct Hin as (i & Hi & Hin). apply IH in Hin.
    assert (S1 : forall i b, 0 <= b <= 1 -> (lo_of i d <= lo_of (2 * i + b) (S d) /\ lo_of (2 * i + b + 1) (S d) <= lo_of (i + 1) d)%Q).
    { intros t b Hb. rewrite <- (lo_double t d), <- (lo_double (t + 1) d). split; apply lo_mono; lia. }
    destruct Hin as ((A1 & A2) & (B1 & B2) & (C1 & C2)).
    assert (M : forall x, 0 <= x mod 2 <= 1) by (intros x; pose proof (Z.mod_pos_bound x 2); lia).
    pose proof (S1 ix (i mod 2) (M _)) as [P1 P2]. pose proof (S1 iy (i / 2 mod 2) (M _)) as [Q1 Q2]. pose proof (S1 iz (i / 4 mod 2) (M _)) as [R1 R2].
    repeat split; eapply Qle_trans; eassumption.
Qed.

(** ** The search *)

Definition leafy (q : Q * cell) : Prop :=
  match snd q with Leaf nb _ (Some (_, l)) => nb = Z.of_nat (length l) | _ => False end.

Definition cont (q : Q * cell) : list Z := contents (snd q).

(** No face of cells goes through the lower faces of the box. *)
Definition off_grid (b : Q) : Prop := forall (k : Z) (d : nat), (d <= 20)%nat -> ~ (b * inject_Z (2 ^ Z.of_nat d) == inject_Z k)%Q.

Lemma walk_ok (A : Type) (f : Z * Z * Z -> A -> outcome (bool * A)) (P : list (Z * Z * Z) -> A -> Prop) (full : list (Z * Z * Z)) :
  (forall d t rest acc, full = d ++ t :: rest -> P d acc -> exists acc', f t acc = Ret (true, acc') /\ P (d ++ [t]) acc') ->
  forall o done acc, full = done ++ o -> P done acc -> exists acc', walk f o acc = Ret (true, acc') /\ P full acc'.
Proof.
  intros Hs. induction o as [|t o IH]; intros done acc Ef H0; cbn [walk].
  - exists acc. rewrite app_nil_r in Ef. subst done. auto.
  - destruct (Hs done t o acc Ef H0) as (a1 & -> & H1). cbn [bind]. apply (IH (done ++ [t])); [|exact H1].
    rewrite <- app_assoc. exact Ef.
Qed.

Definition enc (t : Z * Z * Z) : Z := let '(i, j, k) := t in i + 2 * j + 4 * k.

Lemma corners_perm : Permutation (map enc corners8) (zrange 0 7).
Proof.
  apply NoDup_Permutation.
  - cbn. repeat constructor; cbn; intuition congruence.
  - rewrite zrange07. repeat constructor; cbn; intuition congruence.
  - intros x. rewrite zrange07. cbn. intuition.
Qed.

Lemma filter_flat_map A B (p : B -> bool) (f : A -> list B) l : filter p (flat_map f l) = flat_map (fun x => filter p (f x)) l.
Proof. induction l as [|a l IH]; [reflexivity|]. cbn. rewrite filter_app, IH. reflexivity. Qed.

Lemma filter_none A (p : A -> bool) l : (forall x, In x l -> p x = false) -> filter p l = [].
Proof. induction l as [|a l IH]; intros H; [reflexivity|]. cbn. rewrite H by (left; reflexivity). apply IH. intros. apply H. right. assumption. Qed.

Section Search.
Variable nc : Z.
Variable cen b0 b1 : pt.
Variable pts : Z -> pt.
Variable E : Z.

Definition inv3 (ix iy iz : Z) (d : nat) (r : rect) : Prop :=
  let '((ax, ay, az), (wx, wy, wz)) := r in
  let '(x0, y0, z0) := b0 in let '(x1, y1, z1) := b1 in
  inv1 (lo_of ix d) (lo_of (ix + 1) d) x0 x1 ax wx /\
  inv1 (lo_of iy d) (lo_of (iy + 1) d) y0 y1 ay wy /\
  inv1 (lo_of iz d) (lo_of (iz + 1) d) z0 z1 az wz.

Definition mid_of (i : Z) (d : nat) (c : Q) : Prop := (c + c == lo_of i d + lo_of (i + 1) d)%Q.

Definition off3 : Prop := let '(x, y, z) := b0 in off_grid x /\ off_grid y /\ off_grid z.

Lemma mid_off i d c b : (d < 20)%nat -> mid_of i d c -> off_grid b -> ~ (b == c)%Q.
Proof.
  intros Hd Hm Ho Eb. apply (Ho (2 * i + 1) (S d)); [lia|]. pose proof (pow_Qpos d) as P.
  assert (Ec : (c == lo_of i d + (1 # 2) * / inject_Z (2 ^ Z.of_nat d))%Q) by (unfold mid_of in Hm; rewrite lo_next in Hm; lra).
  rewrite Eb, Ec, pow_S, Qmult_assoc, Qmult_plus_distr_l, lo_mul, inject_Z_plus, inject_Z_mult.
  change (inject_Z 2) with 2%Q. change (inject_Z 1) with 1%Q. field. lra.
Qed.

Lemma child_mid i d c b : b = 0 \/ b = 1 -> mid_of i d c ->
  mid_of (2 * i + b) (S d) (c - half_size (Z.of_nat d) / 2 + inject_Z b * half_size (Z.of_nat d)).
Proof.
  intros Hb Hm. unfold mid_of in *. pose proof (half_size_spec d) as Hh. pose proof (pow_Qpos d) as P.
  rewrite lo_next in Hm. rewrite lo_next.
  assert (Ei : (/ inject_Z (2 ^ Z.of_nat (S d)) == half_size (Z.of_nat d))%Q).
  { rewrite pow_S. transitivity ((/ inject_Z (2 ^ Z.of_nat d)) * (1 # 2))%Q; [field; lra|]. rewrite <- Hh. ring. }
  assert (El : (lo_of (2 * i + b) (S d) == lo_of i d + inject_Z b * half_size (Z.of_nat d))%Q).
  { destruct Hb as [-> | ->].
    - rewrite Z.add_0_r, lo_double. change (inject_Z 0) with 0%Q. ring.
    - rewrite lo_next, lo_double, Ei. change (inject_Z 1) with 1%Q. ring. }
  rewrite Ei, El. set (h := half_size (Z.of_nat d)) in *. set (u := (inject_Z b * h)%Q). 
  assert (Hdiv : (h / 2 == (1 # 2) * h)%Q) by (unfold Qdiv; change (/ 2)%Q with (1 # 2)%Q; ring). rewrite Hdiv. lra.
Qed.

Lemma child_lo i d c b : b = 0 \/ b = 1 -> mid_of i d c ->
  (clo b (lo_of i d) c == lo_of (2 * i + b) (S d))%Q /\ (chi b c (lo_of (i + 1) d) == lo_of (2 * i + b + 1) (S d))%Q.
Proof.
  intros Hb Hm. unfold mid_of in Hm. pose proof (pow_Qpos d) as P.
  assert (Em : (lo_of (2 * i + 1) (S d) == c)%Q).
  { rewrite lo_next, lo_double. rewrite lo_next in Hm. rewrite pow_S.
    assert (Ei : (/ (inject_Z (2 ^ Z.of_nat d) * 2) == (1 # 2) * / inject_Z (2 ^ Z.of_nat d))%Q) by (field; lra).
    rewrite Ei. lra. }
  destruct Hb as [-> | ->]; unfold clo, chi; cbn [Z.eqb].
  - rewrite Z.add_0_r, lo_double. rewrite Em. split; reflexivity.
  - rewrite Em. split; [reflexivity|]. replace (2 * i + 1 + 1) with (2 * (i + 1)) by lia. rewrite lo_double. reflexivity.
Qed.

Lemma inv1_compat lo hi lo' hi' p q a w : (lo == lo')%Q -> (hi == hi')%Q -> inv1 lo hi p q a w -> inv1 lo' hi' p q a w.
Proof. intros E1 E2. unfold inv1. rewrite E1, E2. auto. Qed.

Lemma lo_lt i d : (lo_of i d < lo_of (i + 1) d)%Q.
Proof. rewrite lo_next. pose proof (Qinv_lt_0_compat _ (pow_Qpos d)). lra. Qed.

Lemma half_span i d : (half_size (Z.of_nat d) + half_size (Z.of_nat d) == lo_of (i + 1) d - lo_of i d)%Q.
Proof. rewrite lo_next, <- half_size_spec. ring. Qed.

(** A branch that is not visited has no cell that meets the box. *)
Lemma apart d i c b x0 x1 j e : b = 0 \/ b = 1 -> mid_of i d c ->
  (chi b c (lo_of (i + 1) d) <= x0 \/ x1 <= clo b (lo_of i d) c)%Q ->
  (lo_of (2 * i + b) (S d) <= lo_of j e /\ lo_of (j + 1) e <= lo_of (2 * i + b + 1) (S d))%Q ->
  overlap1 j e x0 x1 = false.
Proof.
  intros Hb Hm Hs [H1 H2]. destruct (child_lo i d c b Hb Hm) as [C1 C2]. rewrite C1, C2 in Hs.
  destruct (overlap1 j e x0 x1) eqn:Eo; [|reflexivity]. apply overlap1_true in Eo. destruct Eo, Hs; lra.
Qed.

Lemma bits_enc i j k : (i = 0 \/ i = 1) -> (j = 0 \/ j = 1) -> (k = 0 \/ k = 1) ->
  (i + 2 * j + 4 * k) mod 2 = i /\ (i + 2 * j + 4 * k) / 2 mod 2 = j /\ (i + 2 * j + 4 * k) / 4 mod 2 = k /\ 0 <= i + 2 * j + 4 * k < 8.
Proof. intros [-> | ->] [-> | ->] [-> | ->]; cbn; repeat split; lia. Qed.

Definition kid_leaves (ix iy iz : Z) (d : nat) (br : Z -> cell) (i : Z) :=
  leaves (2 * ix + i mod 2) (2 * iy + i / 2 mod 2) (2 * iz + i / 4 mod 2) (S d) (br i).

Lemma list_ok : forall c d k ix iy iz center r acc,
  off3 -> good pts E d k c ->
  (let '(cx, cy, cz) := center in mid_of ix d cx /\ mid_of iy d cy /\ mid_of iz d cz) ->
  inv3 ix iy iz d r -> Forall leafy acc ->
  Z.of_nat (length acc) + Z.of_nat (length (filter (overlap b0 b1) (leaves ix iy iz d c))) <= nc - 4 ->
  exists acc', list_rec nc cen c center r acc = Ret (true, acc') /\ Forall leafy acc' /\
    Permutation (map cont acc') (map cont acc ++ map snd (filter (overlap b0 b1) (leaves ix iy iz d c))).
Proof.
  induction c as [nb dp v|nb dp v br IH]; intros d k ix iy iz [[cx cy] cz] r acc Off G (Mx & My & Mz) I3 Fa Hlen; cbn [list_rec].
  - destruct (Z.ltb_spec (nc - 4) (Z.of_nat (length acc))); [lia|].
    cbn [leaves] in *. destruct v as [[cap l]|].
    2:{ exists acc. split; [reflexivity|]. split; [exact Fa|]. cbn. rewrite app_nil_r. reflexivity. }
    destruct cen as [[px py] pz].
    assert (Ov : overlap b0 b1 (ix, iy, iz, d, cap, l) = true).
    { unfold inv3 in I3. destruct r as [[[ax ay] az] [[wx wy] wz]]. unfold overlap.
      destruct b0 as [[x0 y0] z0], b1 as [[x1 y1] z1]. destruct I3 as (Ix & Iy & Iz).
      rewrite !andb_true_iff, !overlap1_true.
      destruct Ix as ((? & ? & ? & ? & ?) & _), Iy as ((? & ? & ? & ? & ?) & _), Iz as ((? & ? & ? & ? & ?) & _). repeat split; lra. }
    cbn [filter] in *. rewrite Ov in *. cbn [length] in Hlen.
    match goal with |- context [insert nc acc ?x ?c] => destruct (insert_ok nc acc x c) as (acc' & -> & P) end; [lia|].
    cbn [bind]. exists acc'. split; [reflexivity|]. split.
    + rewrite P. constructor; [|exact Fa]. cbn [good] in G. cbn. apply G.
    + rewrite P. cbn [map snd]. unfold cont at 1. cbn [snd contents]. apply Permutation_cons_append.
  - destruct (Z.ltb_spec (nc - 4) (Z.of_nat (length acc))); [lia|].
    cbn [good] in G. destruct G as (-> & Hd & _ & _ & _ & K).
    unfold inv3 in I3. destruct r as [[[ax ay] az] [[wx wy] wz]].
    destruct b0 as [[x0 y0] z0] eqn:Eb0, b1 as [[x1 y1] z1] eqn:Eb1. destruct I3 as (Ix & Iy & Iz). unfold off3 in Off. rewrite Eb0 in Off. destruct Off as (Ox & Oy & Oz).
    rewrite <- Eb0, <- Eb1 in *.
    set (ovl := fun i => filter (overlap b0 b1) (kid_leaves ix iy iz d br i)).
    assert (Tot : Permutation (filter (overlap b0 b1) (leaves ix iy iz d (Node nb (Z.of_nat d) v br))) (flat_map (fun t => ovl (enc t)) corners8)).
    { cbn [leaves]. rewrite filter_flat_map. rewrite <- (Permutation_flat_map _ corners_perm).
      rewrite flat_map_concat_map, map_map, <- flat_map_concat_map. reflexivity. }
    assert (Lt : Z.of_nat (length acc) + Z.of_nat (length (flat_map (fun t => ovl (enc t)) corners8)) <= nc - 4).
    { rewrite <- (Permutation_length Tot). exact Hlen. }
    pose (f := fun '(i, j, k0) acc0 =>
        if visited i ax wx cx && visited j ay wy cy && visited k0 az wz cz
        then
          let '(ok, r') := inter ((ax, ay, az), (wx, wy, wz))
            ((cx - half_size (Z.of_nat d) * inject_Z (1 - i), cy - half_size (Z.of_nat d) * inject_Z (1 - j), cz - half_size (Z.of_nat d) * inject_Z (1 - k0))%Q,
             (half_size (Z.of_nat d), half_size (Z.of_nat d), half_size (Z.of_nat d))) in
          if negb ok then Ret (false, acc0)
          else list_rec nc cen (br (i + 2 * j + 4 * k0))
             (cx - half_size (Z.of_nat d) / 2 + inject_Z i * half_size (Z.of_nat d),
              cy - half_size (Z.of_nat d) / 2 + inject_Z j * half_size (Z.of_nat d),
              cz - half_size (Z.of_nat d) / 2 + inject_Z k0 * half_size (Z.of_nat d))%Q r' acc0
        else Ret (true, acc0)).
    change (exists acc', walk f corners8 acc = Ret (true, acc') /\ Forall leafy acc' /\
      Permutation (map cont acc') (map cont acc ++ map snd (filter (overlap b0 b1) (leaves ix iy iz d (Node nb (Z.of_nat d) v br))))).
    destruct (walk_ok _ f (fun done acc0 => Forall leafy acc0 /\
         Permutation (map cont acc0) (map cont acc ++ map snd (flat_map (fun t => ovl (enc t)) done))) corners8) with (o := corners8) (done := @nil (Z * Z * Z)) (acc := acc) as (acc' & Ew & Fw & Pw).
    + intros done [[i j] m] rest acc0 Ef (Fa0 & P0). assert (Hin : In (i, j, m) corners8) by (rewrite Ef; apply in_elt).
      assert (Bits : (i = 0 \/ i = 1) /\ (j = 0 \/ j = 1) /\ (m = 0 \/ m = 1)).
      { clear - Hin. cbn in Hin. intuition; match goal with H : (_, _, _) = _ |- _ => injection H as <- <- <- end; auto. }
      destruct Bits as (Bi & Bj & Bm). destruct (bits_enc i j m Bi Bj Bm) as (E1 & E2 & E3 & R8).
      assert (Kl : kid_leaves ix iy iz d br (i + 2 * j + 4 * m) = leaves (2 * ix + i) (2 * iy + j) (2 * iz + m) (S d) (br (i + 2 * j + 4 * m))).
      { unfold kid_leaves. rewrite E1, E2, E3. reflexivity. }
      assert (Hl0 : Z.of_nat (length acc0) + Z.of_nat (length (ovl (enc (i, j, m)))) <= nc - 4).
      { apply Permutation_length in P0. rewrite app_length, !map_length in P0. rewrite Ef, flat_map_app, app_length in Lt.
        cbn [flat_map] in Lt. rewrite app_length in Lt. lia. }
      assert (Key : exists acc', f (i, j, m) acc0 = Ret (true, acc') /\ Forall leafy acc' /\
          Permutation (map cont acc') (map cont acc0 ++ map snd (ovl (enc (i, j, m))))).
      { unfold f. unfold enc in *. unfold ovl in *. rewrite Kl in *.
        destruct (visited i ax wx cx) eqn:Vx, (visited j ay wy cy) eqn:Vy, (visited m az wz cz) eqn:Vz; cbn [andb].
        1:{ unfold inter. destruct (inter1 ax wx _ _) as [ax' wx'] eqn:Jx, (inter1 ay wy _ _) as [ay' wy'] eqn:Jy, (inter1 az wz _ _) as [az' wz'] eqn:Jz.
            assert (Hd20 : (d < 20)%nat) by (unfold D in Hd; lia).
            pose proof (step1 _ _ _ _ _ _ _ _ _ _ _ Bi Ix Mx (half_span ix d) (lo_lt ix d) (mid_off ix d cx x0 Hd20 Mx Ox) Vx Jx) as Sx.
            pose proof (step1 _ _ _ _ _ _ _ _ _ _ _ Bj Iy My (half_span iy d) (lo_lt iy d) (mid_off iy d cy y0 Hd20 My Oy) Vy Jy) as Sy.
            pose proof (step1 _ _ _ _ _ _ _ _ _ _ _ Bm Iz Mz (half_span iz d) (lo_lt iz d) (mid_off iz d cz z0 Hd20 Mz Oz) Vz Jz) as Sz.
            assert (Pos : forall lo hi p q a w, inv1 lo hi p q a w -> Qle_bool w 0 = false).
            { intros lo hi p q a w ((W & _) & _). destruct (Qle_bool w 0) eqn:El; [|reflexivity]. apply Qle_bool_iff in El. lra. }
            rewrite (Pos _ _ _ _ _ _ Sx), (Pos _ _ _ _ _ _ Sy), (Pos _ _ _ _ _ _ Sz). cbn [orb negb].
            apply (IH (i + 2 * j + 4 * m) (S d) (8 * k + (i + 2 * j + 4 * m)) (2 * ix + i) (2 * iy + j) (2 * iz + m)).
            - unfold off3. rewrite Eb0. auto.
            - apply K. exact R8.
            - split; [|split]; apply child_mid; assumption.
            - unfold inv3. rewrite Eb0, Eb1.
              destruct (child_lo ix d cx i Bi Mx) as [X1 X2]. destruct (child_lo iy d cy j Bj My) as [Y1 Y2]. destruct (child_lo iz d cz m Bm Mz) as [Z1 Z2].
              split; [|split].
              + exact (inv1_compat _ _ _ _ _ _ _ _ X1 X2 Sx).
              + exact (inv1_compat _ _ _ _ _ _ _ _ Y1 Y2 Sy).
              + exact (inv1_compat _ _ _ _ _ _ _ _ Z1 Z2 Sz).
            - exact Fa0.
            - exact Hl0. }
        all: exists acc0; (split; [reflexivity|]; split; [exact Fa0|]).
        all: rewrite (filter_none _ (overlap b0 b1)); [cbn; rewrite app_nil_r; reflexivity|].
        all: intros [[[[[jx jy] jz] e] cap] l] Hl; apply leaves_inside in Hl; destruct Hl as (L1 & L2 & L3).
        all: unfold overlap; rewrite Eb0, Eb1.
        all: rewrite ?andb_false_iff.
        all: try (left; left; exact (apart d ix cx i x0 x1 jx e Bi Mx (skip1 _ _ _ _ _ _ _ _ Bi Ix Mx (lo_lt ix d) Vx) L1)).
        all: try (left; right; exact (apart d iy cy j y0 y1 jy e Bj My (skip1 _ _ _ _ _ _ _ _ Bj Iy My (lo_lt iy d) Vy) L2)).
        all: try (right; exact (apart d iz cz m z0 z1 jz e Bm Mz (skip1 _ _ _ _ _ _ _ _ Bm Iz Mz (lo_lt iz d) Vz) L3)). }
      destruct Key as (acc' & Ek & Fk & Pk). exists acc'. split; [exact Ek|]. split; [exact Fk|].
      rewrite Pk, P0, flat_map_app, map_app. cbn [flat_map]. rewrite app_nil_r, app_assoc. reflexivity.
    + reflexivity.
    + split; [exact Fa|]. cbn. rewrite app_nil_r. reflexivity.
    + exists acc'. split; [exact Ew|]. split; [exact Fw|]. rewrite Pw. apply Permutation_app_head, Permutation_map. symmetry. exact Tot.
Qed.

End Search.

Lemma firstn_S_nth A (l : list A) n x : nth_error l n = Some x -> firstn (S n) l = firstn n l ++ [x].
Proof.
  revert n. induction l as [|a l IH]; intros [|n] H; try discriminate.
  - injection H as ->. reflexivity.
  - cbn [firstn app]. rewrite <- (IH n H). reflexivity.
Qed.

(** ** Acceptance of a point *)

Definition close (pts : Z -> pt) (m : Z -> Q) (p : pt) (h2 lmax : Q) (no : Z) : Prop :=
  (dist2 p (pts no) < h2 \/ dist2 p (pts no) < (lmax * m no) * (lmax * m no))%Q.

Lemma scan_ok pts m p h2 lmax l : Forall leafy l ->
  exists r, scan_cells pts m p h2 lmax l = Ret r /\
  ((r = 1 /\ forall no, In no (concat (map cont l)) -> ~ close pts m p h2 lmax no) \/
   (r = 0 /\ exists no, In no (concat (map cont l)) /\ close pts m p h2 lmax no)).
Proof.
  induction l as [|[x c] l IH]; intros F; cbn [scan_cells].
  - exists 1. split; [reflexivity|]. left. split; [reflexivity|]. intros no [].
  - inversion F as [|? ? Lc Fl]; subst. specialize (IH Fl). unfold leafy in Lc. cbn [snd] in Lc.
    destruct c as [nb dp [[cap t]|]|]; [|destruct Lc|destruct Lc]. subst nb. cbn [nbv tabv].
    cbn [map concat]. unfold cont at 1 3. cbn [snd contents].
    match goal with |- context [for_range 0 ?n ?f 1] =>
      destruct (@for_range_inv Z (fun j r => (r = 1 /\ forall no, In no (firstn (Z.to_nat j) t) -> ~ close pts m p h2 lmax no) \/
        (r = 0 /\ exists no, In no t /\ close pts m p h2 lmax no)) f 0 n 1) as (r & -> & Hr) end.
    + lia.
    + left. split; [reflexivity|]. intros no [].
    + intros j r Hj [[-> Hr]|[-> Hr]]; cbn [Z.eqb]; [|exists 0; split; [reflexivity|right; auto]].
      unfold item. destruct (nth_error t (Z.to_nat j)) as [ip1|] eqn:Ej; [|apply nth_error_None in Ej; lia]. cbn [bind].
      eexists. split; [reflexivity|].
      destruct (Qltb_spec (dist2 p (pts ip1)) h2) as [[-> H1]|[-> H1]]; cbn [orb].
      { right. split; [reflexivity|]. exists ip1. split; [exact (nth_error_In _ _ Ej)|left; exact H1]. }
      destruct (Qltb_spec (dist2 p (pts ip1)) (lmax * m ip1 * (lmax * m ip1))) as [[-> H2]|[-> H2]].
      { right. split; [reflexivity|]. exists ip1. split; [exact (nth_error_In _ _ Ej)|right; exact H2]. }
      left. split; [reflexivity|]. intros no Hno. replace (Z.to_nat (j + 1)) with (S (Z.to_nat j)) in Hno by lia.
      rewrite (firstn_S_nth _ _ _ _ Ej) in Hno. apply in_app_or in Hno. destruct Hno as [Hno|[<-|[]]]; [exact (Hr _ Hno)|].
      unfold close. lra.
    + cbn [bind]. destruct Hr as [[-> Hr]|[-> (no & Hn & Cn)]]; cbn [Z.eqb].
      * destruct IH as (r & -> & Hc). exists r. split; [reflexivity|].
        replace (Z.to_nat (Z.of_nat (length t) - 1 + 1)) with (length t) in Hr by lia. rewrite firstn_all in Hr.
        destruct Hc as [[-> Hc]|[-> (no & Hn & Cn)]]; [left|right]; (split; [reflexivity|]).
        -- intros no Hno. apply in_app_or in Hno. destruct Hno; auto.
        -- exists no. split; [apply in_or_app; right; exact Hn|exact Cn].
      * exists 0. split; [reflexivity|]. right. split; [reflexivity|]. exists no. split; [apply in_or_app; left; exact Hn|exact Cn].
Qed.

Lemma sq_lt u h : (0 < h)%Q -> (u * u < h * h)%Q -> (- h < u < h)%Q.
Proof. intros Hh H. split; apply Qnot_le_lt; intros C; nra. Qed.

Lemma sum_lt a b c d : (a * a + b * b + c * c < d)%Q -> (a * a < d /\ b * b < d /\ c * c < d)%Q.
Proof.
  intros H. assert (N : forall t, (0 <= t * t)%Q) by (intros t; nra). pose proof (N a). pose proof (N b). pose proof (N c). repeat split; lra.
Qed.

Lemma slab_overlap i d x b0 b1 : in_slab i d x -> (b0 < x < b1)%Q -> overlap1 i d b0 b1 = true.
Proof.
  intros [H1 H2] [H3 H4]. apply overlap1_true. pose proof (pow_Qpos d) as P. rewrite <- (lo_mul i d) in H1. rewrite <- (lo_mul (i + 1) d) in H2.
  apply Qmult_le_r in H1; [|exact P]. apply Qmult_le_r in H2; [|exact P]. lra.
Qed.

Lemma root_inv x h : (0 <= x <= 1)%Q -> (0 < h)%Q -> inv1 (lo_of 0 0) (lo_of (0 + 1) 0) (x - h) (x - h + 2 * h) (x - h) (2 * h).
Proof.
  intros Hx Hh. assert (L0 : (lo_of 0 0 == 0)%Q) by reflexivity. assert (L1 : (lo_of (0 + 1) 0 == 1)%Q) by reflexivity.
  unfold inv1. rewrite L0, L1. split; [repeat split; lra|]. split; left; lra.
Qed.

(** The corners of the searched box *)
Definition box_lo (p : pt) (h : Q) : pt := let '(x, y, z) := p in (x - h, y - h, z - h)%Q.
Definition box_hi (p : pt) (h : Q) : pt := let '(x, y, z) := p in (x - h + 2 * h, y - h + 2 * h, z - h + 2 * h)%Q.

(** In a tree made by insertions and deletions of points of the unit cube: as long as
    the lower faces of the box around the point lie on no plane that separates cells
    and at most [nc-4] non-empty cells meet the box, an accepted point is at distance
    at least [h] of all vertices of the tree and a refused point is close to one. *)
Theorem C24_partial : forall pts E ops c m nc ip lmax, 0 <= E -> positive_ops ops -> orun pts (2 ^ E) ops init_cell = Ret c ->
  (forall no, In no (live ops) -> unit_pt (pts no)) -> unit_pt (pts ip) -> (0 < lmax * m ip)%Q ->
  off3 (box_lo (pts ip) (lmax * m ip)) ->
  Z.of_nat (length (filter (overlap (box_lo (pts ip) (lmax * m ip)) (box_hi (pts ip) (lmax * m ip))) (leaves 0 0 0 0 c))) <= nc - 4 ->
  exists r, oct_in pts m nc c ip lmax = Ret r /\
  ((r = 1 /\ forall no, In no (live ops) -> (lmax * m ip * (lmax * m ip) <= dist2 (pts ip) (pts no))%Q) \/
   (r = 0 /\ exists no, In no (live ops) /\
      (dist2 (pts ip) (pts no) < lmax * m ip * (lmax * m ip) \/ dist2 (pts ip) (pts no) < lmax * m no * (lmax * m no))%Q)).
Proof.
  intros pts E ops c m nc ip lmax HE F Er Hu Hp Hh Ho Hn.
  destruct (orun_ok pts E HE ops init_cell [] c (init_good pts E) (Permutation_refl _) F Er) as (G & P).
  assert (Pl : Permutation (concat (map snd (leaves 0 0 0 0 c))) (live ops)) by (rewrite leaves_contents; exact P).
  pose proof (C23_cells pts E ops c HE F Er) as Cells.
  unfold oct_in. set (h := (lmax * m ip)%Q) in *. destruct (pts ip) as [[x y] z] eqn:Ep. unfold get_list.
  unfold box_lo, box_hi in *. destruct Hp as (Hx & Hy & Hz).
  match goal with |- context [list_rec nc ?cen c ?ce ?r []] =>
    destruct (list_ok nc cen (x - h, y - h, z - h)%Q (x - h + 2 * h, y - h + 2 * h, z - h + 2 * h)%Q pts E c 0%nat 0 0 0 0 ce r []) as (acc & -> & Fa & Pa) end.
  - exact Ho.
  - exact G.
  - repeat split.
  - unfold inv3. split; [|split]; apply root_inv; assumption.
  - constructor.
  - exact Hn.
  - cbn [bind negb]. cbn [map app] in Pa. pose proof (Permutation_length Pa) as La. rewrite !map_length in La.
    destruct (Z.ltb_spec (nc - 4) (Z.of_nat (length acc))); [lia|]. cbn [bind].
    destruct (scan_ok pts m (x, y, z) (h * h) lmax acc Fa) as (r & -> & Hr). exists r. split; [reflexivity|].
    assert (In1 : forall no, In no (concat (map cont acc)) <->
      exists t, In t (leaves 0 0 0 0 c) /\ overlap (x - h, y - h, z - h)%Q (x - h + 2 * h, y - h + 2 * h, z - h + 2 * h)%Q t = true /\ In no (snd t)).
    { intros no. rewrite in_concat. split.
      - intros (l & Hl & Hno). apply (Permutation_in _ Pa) in Hl. apply in_map_iff in Hl. destruct Hl as (t & <- & Ht).
        apply filter_In in Ht. exists t. tauto.
      - intros (t & Ht & Ov & Hno). exists (snd t). split; [|exact Hno]. apply (Permutation_in _ (Permutation_sym Pa)).
        apply in_map. apply filter_In. auto. }
    destruct Hr as [[-> Hr]|[-> (no & Hno & Cn)]]; [left|right]; (split; [reflexivity|]).
    + intros no Hno. apply Qnot_lt_le. intros Hd. apply (Hr no); [|left; exact Hd]. apply In1.
      pose proof (Permutation_in _ (Permutation_sym Pl) Hno) as Hc. apply in_concat in Hc. destruct Hc as (l & Hl & Hnl).
      apply in_map_iff in Hl. destruct Hl as (t & <- & Ht). exists t. split; [exact Ht|]. split; [|exact Hnl].
      destruct t as [[[[[ix iy] iz] d] cap] l]. cbn [snd] in Hnl.
      specialize (Cells ix iy iz d cap l no Ht Hnl (Hu no Hno)). unfold in_box in Cells. unfold dist2 in Hd.
      destruct (pts no) as [[x' y'] z']. destruct Cells as (Bx & By & Bz).
      destruct (sum_lt _ _ _ _ Hd) as (Sx & Sy & Sz).
      apply sq_lt in Sx; [|exact Hh]. apply sq_lt in Sy; [|exact Hh]. apply sq_lt in Sz; [|exact Hh].
      unfold overlap. rewrite (slab_overlap ix d x'), (slab_overlap iy d y'), (slab_overlap iz d z'); [reflexivity|assumption|lra|assumption|lra|assumption|lra].
    + exists no. split; [|exact Cn]. apply In1 in Hno. destruct Hno as (t & Ht & _ & Hnt).
      apply (Permutation_in _ Pl). apply in_concat. exists (snd t). split; [apply in_map; exact Ht|exact Hnt].
Qed.
Print Assumptions C24_partial.

(** A tree of four vertices, at most two per cell: a far point is accepted, a near one
    refused. *)
Definition pts24 (no : Z) : pt :=
  if no =? 1 then (1 # 8, 1 # 8, 1 # 8)%Q else if no =? 2 then (7 # 8, 1 # 5, 1 # 3)%Q else if no =? 3 then (1 # 4, 2 # 3, 1 # 9)%Q
  else if no =? 4 then (1 # 5, 1 # 6, 1 # 7)%Q else if no =? 5 then (1 # 4, 1 # 4, 1 # 4)%Q else (2 # 3, 2 # 3, 2 # 3)%Q.
Definition ops24 : list oop := [OAdd 1; OAdd 2; OAdd 3; OAdd 4].

Lemma off_third n : n mod 3 <> 0 -> off_grid (n # 3).
Proof.
  intros Hn k d Hd. unfold Qeq. cbn [Qnum Qden Qmult inject_Z]. rewrite Pos.mul_1_r. intros H.
  assert (D3 : 2 ^ Z.of_nat d mod 3 = 1 \/ 2 ^ Z.of_nat d mod 3 = 2).
  { clear. induction d as [|d IH]; [left; reflexivity|]. replace (Z.of_nat (S d)) with (Z.of_nat d + 1) by lia. rewrite Z.pow_add_r by lia.
    rewrite Z.mul_mod by lia. destruct IH as [-> | ->]; [right|left]; reflexivity. }
  assert (Hm : (n * 2 ^ Z.of_nat d * 1) mod 3 = 0) by (rewrite H; apply Z.mod_mul; lia).
  rewrite Z.mul_1_r, Z.mul_mod in Hm by lia. assert (n mod 3 = 1 \/ n mod 3 = 2) by (pose proof (Z.mod_pos_bound n 3); lia).
  destruct D3 as [D3|D3]; rewrite D3 in Hm; destruct H0 as [H0|H0]; rewrite H0 in Hm; discriminate.
Qed.

Lemma off_compat a b : (a == b)%Q -> off_grid a -> off_grid b.
Proof. intros E1 H k d Hd. rewrite <- E1. apply H. exact Hd. Qed.

(** Sizes: the point 6 asks for a distance 1/3 (box from 1/3 to 1), the point 5 for a
    distance 7/12 (box from -1/3). *)
Definition met24 (no : Z) : Q := if no =? 6 then (1 # 3)%Q else if no =? 5 then (7 # 12)%Q else (1 # 100)%Q.

Example C24_case_hyps : forall ip, ip = 5 \/ ip = 6 -> exists c, orun pts24 (2 ^ 1) ops24 init_cell = Ret c /\
  positive_ops ops24 /\ (forall no, In no (live ops24) -> unit_pt (pts24 no)) /\ unit_pt (pts24 ip) /\ (0 < 1 * met24 ip)%Q /\
  off3 (box_lo (pts24 ip) (1 * met24 ip)) /\
  Z.of_nat (length (filter (overlap (box_lo (pts24 ip) (1 * met24 ip)) (box_hi (pts24 ip) (1 * met24 ip))) (leaves 0 0 0 0 c))) <= round_nc 2 - 4.
Proof.
  intros ip Hip. eexists. split; [vm_compute; reflexivity|]. split; [repeat constructor|]. split.
  { intros no Hno. cbn in Hno. assert (no = 1 \/ no = 2 \/ no = 3 \/ no = 4) as [-> | [-> | [-> | ->]]] by lia;
      cbn; repeat split; unfold Qle; cbn; lia. }
  split; [destruct Hip as [-> | ->]; cbn; repeat split; unfold Qle; cbn; lia|].
  split; [destruct Hip as [-> | ->]; reflexivity|]. split.
  - destruct Hip as [-> | ->]; unfold off3; cbn.
    + split; [|split]; (apply (off_compat (-1 # 3)); [reflexivity|apply off_third; cbn; lia]).
    + split; [|split]; (apply (off_compat (1 # 3)); [reflexivity|apply off_third; cbn; lia]).
  - destruct Hip as [-> | ->]; vm_compute; discriminate.
Qed.

Example C24_case_accepted : (c <- orun pts24 (2 ^ 1) ops24 init_cell ;; oct_in pts24 met24 (round_nc 2) c 6 1) = Ret 1.
Proof. vm_compute. reflexivity. Qed.

Example C24_case_refused : (c <- orun pts24 (2 ^ 1) ops24 init_cell ;; oct_in pts24 met24 (round_nc 2) c 5 1) = Ret 0.
Proof. vm_compute. reflexivity. Qed.

(** When a lower face of the box lies on the plane that separates two cells, the
    search gives up and the point is accepted next to a vertex. *)
Definition pts24b (no : Z) : pt :=
  if no =? 1 then (1 # 8, 1 # 8, 1 # 8)%Q else if no =? 2 then (5 # 8, 5 # 8, 11 # 16)%Q else (5 # 8, 5 # 8, 5 # 8)%Q.

Theorem C24_face_refuted : exists pts ops c m ip lmax, positive_ops ops /\ orun pts (2 ^ 0) ops init_cell = Ret c /\
  unit_pt (pts ip) /\ (forall no, In no (live ops) -> unit_pt (pts no)) /\ (0 < lmax * m ip)%Q /\
  oct_in pts m (round_nc (2 ^ 0)) c ip lmax = Ret 1 /\
  exists no, In no (live ops) /\ (dist2 (pts ip) (pts no) < lmax * m ip * (lmax * m ip))%Q.
Proof.
  exists pts24b, [OAdd 1; OAdd 2]. eexists. exists (fun _ => 1 # 8)%Q, 3, 1%Q.
  split; [repeat constructor|]. split; [vm_compute; reflexivity|].
  split; [cbn; repeat split; unfold Qle; cbn; lia|]. split.
  { intros no Hno. cbn in Hno. assert (no = 1 \/ no = 2) as [-> | ->] by lia; cbn; repeat split; unfold Qle; cbn; lia. }
  split; [reflexivity|]. split; [vm_compute; reflexivity|]. exists 2. split; [left; reflexivity|reflexivity].
Qed.
Print Assumptions C24_face_refuted.

(** When too many cells meet the box the list is dropped and the point is accepted. *)
Definition pts24c (no : Z) : pt :=
  if no <=? 7 then (inject_Z (no mod 2) * (1 # 2) + (1 # 3), inject_Z (no / 2 mod 2) * (1 # 2) + (1 # 3), inject_Z (no / 4 mod 2) * (1 # 2) + (1 # 3))%Q
  else if no <=? 200 then (inject_Z (no mod 2) * (1 # 4) + inject_Z no * (1 # 1000), inject_Z (no / 2 mod 2) * (1 # 4) + (1 # 10), inject_Z (no / 4 mod 2) * (1 # 4) + (1 # 10))%Q
  else (1 # 2, 1 # 2, 1 # 2)%Q.
Definition ops24c : list oop := map (fun n => OAdd (Z.of_nat n)) (seq 1 150).

Theorem C24_many_cells_refuted : exists pts ops c m ip lmax, positive_ops ops /\ orun pts (2 ^ 7) ops init_cell = Ret c /\
  unit_pt (pts ip) /\ (forall no, In no (live ops) -> unit_pt (pts no)) /\ (0 < lmax * m ip)%Q /\
  off3 (box_lo (pts ip) (lmax * m ip)) /\
  oct_in pts m (round_nc (2 ^ 7)) c ip lmax = Ret 1 /\
  exists no, In no (live ops) /\ (dist2 (pts ip) (pts no) < lmax * m ip * (lmax * m ip))%Q.
Proof.
  exists pts24c, ops24c. eexists. exists (fun _ => 5 # 6)%Q, 201, 1%Q.
  split; [apply Forall_forall; intros o Ho; unfold ops24c in Ho; apply in_map_iff in Ho; destruct Ho as (n & <- & Hn); apply in_seq in Hn; lia|].
  split; [vm_compute; reflexivity|].
  split; [cbn; repeat split; unfold Qle; cbn; lia|]. split.
  { assert (All : forallb (fun no => let '(x, y, z) := pts24c no in Qle_bool 0 x && Qle_bool x 1 && (Qle_bool 0 y && Qle_bool y 1) && (Qle_bool 0 z && Qle_bool z 1)) (live ops24c) = true) by (vm_compute; reflexivity).
    intros no Hno. rewrite forallb_forall in All. specialize (All no Hno). unfold unit_pt. destruct (pts24c no) as [[x y] z].
    rewrite !andb_true_iff, !Qle_bool_iff in All. tauto. }
  split; [reflexivity|]. split.
  { unfold off3; cbn. split; [|split]; (apply (off_compat (-1 # 3)); [reflexivity|apply off_third; cbn; lia]). }
  split; [vm_compute; reflexivity|]. exists 1. split; [vm_compute; tauto|reflexivity].
Qed.
Print Assumptions C24_many_cells_refuted.

(** ** C43: moved vertices *)

Lemma code_upd pts no new d x : x <> no -> code (upd pts no new) d x = code pts d x.
Proof.
  intros H. induction d as [|d IH]; [reflexivity|]. cbn [code]. rewrite IH. unfold at_. rewrite upd_other by exact H. reflexivity.
Qed.

Lemma good_upd pts E no new c : forall d k, ~ In no (contents c) -> good pts E d k c -> good (upd pts no new) E d k c.
Proof.
  induction c as [nb dp v|nb dp v br IH]; intros d k Hn G; cbn [good] in *.
  - destruct G as (A & B & C). split; [exact A|]. split; [exact B|]. destruct v as [[cap l]|]; [|exact C].
    destruct C as (C1 & C2 & C3 & C4). repeat (split; [assumption|]). rewrite Forall_forall in *. intros x Hx.
    rewrite code_upd by (intros ->; apply Hn; exact Hx). apply C4. exact Hx.
  - destruct G as (A & B & C & D1 & D2 & K). repeat (split; [assumption|]). intros i Hi. apply IH; [|apply K; exact Hi].
    intros Hc. apply Hn. change (In no (flat br)). apply flat_in. exists i. split; [exact Hi|exact Hc].
Qed.

Lemma move_far pts nv c no new old c1 : get_coord (pts no) <> get_coord old -> pts no = new -> del_rec nv c old no = Ret c1 ->
  move_vertex pts nv c no new old = ocall pts nv (OAdd no) c1.
Proof.
  unfold ocall, move_vertex, add_vertex. cbv zeta. generalize (add_rec add_fuel). intros f.
  generalize (get_coord (pts no)) (get_coord old). intros a b H <- ->.
  destruct (Z.eqb_spec a b); [contradiction|reflexivity].
Qed.

(** When the mesh already holds the new position and the two positions have different
    codes, the move puts the vertex in a cell of its new position. *)
Theorem C43_after_update_partial : forall pts E ops c no new, 0 <= E -> positive_ops ops -> orun pts (2 ^ E) ops init_cell = Ret c ->
  NoDup (live ops) -> In no (live ops) -> get_coord new <> get_coord (pts no) ->
  forall c', move_vertex (upd pts no new) (2 ^ E) c no new (pts no) = Ret c' ->
  Permutation (concat (map snd (leaves 0 0 0 0 c'))) (live ops) /\ counters c' /\
  forall ix iy iz d cap l x, In (ix, iy, iz, d, cap, l) (leaves 0 0 0 0 c') -> In x l -> unit_pt (upd pts no new x) ->
    in_box ix iy iz d (upd pts no new x).
Proof.
  intros pts E ops c no new HE F Er Nd Hin Hg c' Em.
  destruct (orun_ok pts E HE ops init_cell [] c (init_good pts E) (Permutation_refl _) F Er) as (G & P).
  change (Permutation (contents c) (live ops)) in P.
  assert (Pos : 0 < no) by (apply (good_in pts E 0 0 c no G); apply (Permutation_in _ (Permutation_sym P)); exact Hin).
  destruct (del_ok pts E HE c 0%nat 0 no G eq_refl) as (c1 & E1 & G1 & R1 & _). change (at_ pts 0 no) with (pts no) in E1.
  assert (P1 : Permutation (contents c) (no :: contents c1)).
  { destruct R1 as [[_ R1]|[R1 _]]; [exact R1|]. exfalso. apply R1. apply (Permutation_in _ (Permutation_sym P)). exact Hin. }
  assert (N1 : ~ In no (contents c1)).
  { assert (NoDup (no :: contents c1)) by (apply (Permutation_NoDup P1); apply (Permutation_NoDup (Permutation_sym P)); exact Nd).
    inversion H; assumption. }
  pose proof (good_upd pts E no new c1 0%nat 0 N1 G1) as G2.
  rewrite (move_far _ _ _ _ _ _ c1) in Em; [|rewrite upd_same; exact Hg|apply upd_same|exact E1].
  pose proof (ocall_ok (upd pts no new) E HE (OAdd no) c1 (contents c1) G2 (Permutation_refl _) Pos) as A.
  rewrite Em in A. destruct A as (G3 & P3 & _).
  split; [|split].
  - rewrite leaves_contents, P3. cbn [step_live]. rewrite <- P1. exact P.
  - apply (counters_good (upd pts no new) E c' 0%nat 0 G3).
  - intros ix iy iz d cap l x Hl Hx Hu.
    destruct (leaves_good (upd pts no new) E c' 0%nat 0 0 0 0 ix iy iz d cap l G3) as (_ & _ & _ & _ & A); [|exact Hl|].
    + intros t _. unfold place. destruct (upd pts no new t) as [[? ?] ?]. reflexivity.
    + destruct (A x Hx) as [_ Ep]. unfold place in Ep. unfold unit_pt, in_box in *. destruct (upd pts no new x) as [[x1 y1] z1].
      injection Ep as <- <- <-. destruct Hu as (Hx1 & Hy & Hz). split; [|split]; apply slab_in; assumption.
Qed.
Print Assumptions C43_after_update_partial.

Example C43_case : exists c c', orun pts24 (2 ^ 1) ops24 init_cell = Ret c /\ NoDup (live ops24) /\ In 4 (live ops24) /\
  get_coord (7 # 8, 6 # 7, 5 # 7) <> get_coord (pts24 4) /\
  move_vertex (upd pts24 4 (7 # 8, 6 # 7, 5 # 7)%Q) (2 ^ 1) c 4 (7 # 8, 6 # 7, 5 # 7) (pts24 4) = Ret c' /\
  map snd (leaves 0 0 0 0 c) = [[1; 4]; [2]; [3]] /\ map snd (leaves 0 0 0 0 c') = [[1]; [2]; [3]; [4]].
Proof.
  eexists. eexists. split; [vm_compute; reflexivity|]. split; [cbn; repeat constructor; cbn; lia|]. split; [left; reflexivity|].
  split; [vm_compute; discriminate|]. split; [vm_compute; reflexivity|]. split; vm_compute; reflexivity.
Qed.

(** All callers pass the position found in the mesh as the old one
    (movpt_3d.c:149,326,814,1095,1581, anisomovpt_3d.c:158,464), and the code of the new
    position is computed from the mesh too: the tree is never changed.  The vertex stays
    in a cell that does not contain it, its deletion does not find it and the filter
    accepts a point at its place. *)
Theorem C43_refuted : exists pts ops c no new c' d, positive_ops ops /\ orun pts (2 ^ 1) ops init_cell = Ret c /\
  (forall x, In x (live ops) -> unit_pt (pts x)) /\ unit_pt new /\ NoDup (live ops) /\ In no (live ops) /\
  move_vertex pts (2 ^ 1) c no new (pts no) = Ret c' /\
  (exists ix iy iz e cap l, In (ix, iy, iz, e, cap, l) (leaves 0 0 0 0 c') /\ In no l /\ ~ in_box ix iy iz e (upd pts no new no)) /\
  del_vertex (upd pts no new) (2 ^ 1) c' no = Ret d /\ In no (concat (map snd (leaves 0 0 0 0 d))).
Proof.
  exists pts24, ops24. eexists. exists 4, (7 # 8, 6 # 7, 5 # 7)%Q. eexists. eexists.
  split; [repeat constructor|]. split; [vm_compute; reflexivity|]. split.
  { intros no Hno. cbn in Hno. assert (no = 1 \/ no = 2 \/ no = 3 \/ no = 4) as [-> | [-> | [-> | ->]]] by lia;
      cbn; repeat split; unfold Qle; cbn; lia. }
  split; [cbn; repeat split; unfold Qle; cbn; lia|]. split; [cbn; repeat constructor; cbn; lia|]. split; [left; reflexivity|].
  split; [vm_compute; reflexivity|]. split.
  - exists 0, 0, 0, 1%nat, 2, [1; 4]. split; [vm_compute; left; reflexivity|]. split; [right; left; reflexivity|].
    rewrite upd_same. intros [[_ H] _]. vm_compute in H. apply H. reflexivity.
  - split; [vm_compute; reflexivity|]. vm_compute. tauto.
Qed.
Print Assumptions C43_refuted.

Lemma never_moved : forall pts nv c no new, move_vertex pts nv c no new (pts no) = Ret c.
Proof. intros. unfold move_vertex. cbv zeta. generalize (get_coord (pts no)). intros a. rewrite Z.eqb_refl. reflexivity. Qed.
Print Assumptions never_moved.
