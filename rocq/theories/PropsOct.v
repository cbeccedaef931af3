(** C23: the search tree holds exactly the inserted vertices. *)
From Coq Require Import ZArith QArith List Lia Bool Permutation Arith Lqa.
From Coq Require Import ZifyBool ZifyNat.
From Verif Require Import CBase Chain OctModel OctProofs.
Import ListNotations.
Open Scope Z_scope.

(** ** Histories *)

Inductive oop := OAdd (no : Z) | ODel (no : Z).

Definition ocall (pts : Z -> pt) (nv : Z) (o : oop) (c : cell) : outcome cell :=
  match o with
  | OAdd no => add_vertex pts nv c no
  | ODel no => del_vertex pts nv c no
  end.

Fixpoint orun (pts : Z -> pt) (nv : Z) (l : list oop) (c : cell) : outcome cell :=
  match l with
  | [] => Ret c
  | o :: l => c <- ocall pts nv o c ;; orun pts nv l c
  end.

Definition positive_ops (l : list oop) : Prop := Forall (fun o => match o with OAdd no => 0 < no | ODel _ => True end) l.

(** The vertices inserted and not deleted. *)
Fixpoint remove1 (x : Z) (l : list Z) : list Z :=
  match l with
  | [] => []
  | y :: l => if y =? x then l else y :: remove1 x l
  end.

Definition live (l : list oop) : list Z :=
  fold_left (fun acc o => match o with OAdd no => no :: acc | ODel no => remove1 no acc end) l [].

(** The terminal cells of the tree with their position [(ix,iy,iz)] on the grid of
    their level, their number of allocated items and their vertices. *)
Fixpoint leaves (ix iy iz : Z) (d : nat) (c : cell) : list (Z * Z * Z * nat * Z * list Z) :=
  match c with
  | Leaf _ _ None => []
  | Leaf _ _ (Some (cap, l)) => [(ix, iy, iz, d, cap, l)]
  | Node _ _ _ br =>
    flat_map (fun i => leaves (2 * ix + i mod 2) (2 * iy + i / 2 mod 2) (2 * iz + i / 4 mod 2) (S d) (br i)) (zrange 0 7)
  end.

(** [x] lies in the interval of index [i] among the [2^d] intervals of [[0,1]]. *)
Definition in_slab (i : Z) (d : nat) (x : Q) : Prop :=
  (inject_Z i <= x * inject_Z (2 ^ Z.of_nat d) <= inject_Z (i + 1))%Q.

Definition in_box (ix iy iz : Z) (d : nat) (p : pt) : Prop :=
  let '(x, y, z) := p in in_slab ix d x /\ in_slab iy d y /\ in_slab iz d z.

Definition unit_pt (p : pt) : Prop :=
  let '(x, y, z) := p in (0 <= x <= 1)%Q /\ (0 <= y <= 1)%Q /\ (0 <= z <= 1)%Q.

(** Every counter is the number of vertices of the terminal cells below. *)
Fixpoint counters (c : cell) : Prop :=
  match c with
  | Leaf nb _ v => nb = match v with None => 0 | Some (_, l) => Z.of_nat (length l) end
  | Node nb _ _ br =>
    nb = Z.of_nat (length (flat_map (fun i => concat (map snd (leaves 0 0 0 0 (br i)))) (zrange 0 7))) /\
    forall i, 0 <= i < 8 -> counters (br i)
  end.

(** ** Cells and boxes *)

Lemma up_half_spec x : (up_half x = true /\ (1 # 2 < x)%Q) \/ (up_half x = false /\ (x <= 1 # 2)%Q).
Proof.
  unfold up_half. destruct (Qle_bool x (1 # 2)) eqn:E; [right|left]; (split; [reflexivity|]).
  - apply Qle_bool_iff. exact E.
  - apply Qnot_le_lt. intros H. apply Qle_bool_iff in H. congruence.
Qed.

Lemma half_spec x : (half x == x * 2 - inject_Z (bit x))%Q.
Proof. unfold half, bit. destruct (up_half x); change (inject_Z 1) with 1%Q; change (inject_Z 0) with 0%Q; ring. Qed.

Lemma half_unit x : (0 <= x <= 1)%Q -> (0 <= half x <= 1)%Q.
Proof.
  intros H. unfold half. destruct (up_half_spec x) as [[-> H']|[-> H']]; lra.
Qed.

Fixpoint slab (d : nat) (x : Q) : Z :=
  match d with
  | O => 0
  | S d => 2 * slab d x + bit (Nat.iter d half x)
  end.

Lemma slab_spec d x : (x * inject_Z (2 ^ Z.of_nat d) == inject_Z (slab d x) + Nat.iter d half x)%Q.
Proof.
  induction d as [|d IH].
  - cbn. ring.
  - cbn [slab]. change (Nat.iter (S d) half x) with (half (Nat.iter d half x)). rewrite half_spec.
    replace (2 ^ Z.of_nat (S d)) with (2 ^ Z.of_nat d * 2) by (rewrite Nat2Z.inj_succ, Z.pow_succ_r by lia; lia).
    rewrite inject_Z_mult, inject_Z_plus, inject_Z_mult. change (inject_Z 2) with 2%Q.
    rewrite Qmult_assoc, IH. ring.
Qed.

Lemma iter_unit d x : (0 <= x <= 1)%Q -> (0 <= Nat.iter d half x <= 1)%Q.
Proof. intros H. induction d as [|d IH]; [exact H|]. change (Nat.iter (S d) half x) with (half (Nat.iter d half x)). apply half_unit. exact IH. Qed.

Lemma slab_in d x : (0 <= x <= 1)%Q -> in_slab (slab d x) d x.
Proof.
  intros H. pose proof (iter_unit d x H) as Hi. unfold in_slab. rewrite slab_spec, inject_Z_plus.
  change (inject_Z 1) with 1%Q. lra.
Qed.

Lemma iter_halfp d x y z : Nat.iter d halfp (x, y, z) = (Nat.iter d half x, Nat.iter d half y, Nat.iter d half z).
Proof.
  induction d as [|d IH]; [reflexivity|].
  change (Nat.iter (S d) halfp (x, y, z)) with (halfp (Nat.iter d halfp (x, y, z))). rewrite IH. reflexivity.
Qed.

Lemma bits_of p q r : 0 <= p <= 1 -> 0 <= q <= 1 -> 0 <= r <= 1 ->
  (p + 2 * q + 4 * r) mod 2 = p /\ (p + 2 * q + 4 * r) / 2 mod 2 = q /\ (p + 2 * q + 4 * r) / 4 mod 2 = r.
Proof.
  intros Hp Hq Hr. assert (p = 0 \/ p = 1) by lia. assert (q = 0 \/ q = 1) by lia. assert (r = 0 \/ r = 1) by lia.
  intuition subst; reflexivity.
Qed.

Section Props.
Variable pts : Z -> pt.
Variable E : Z.
Hypothesis HE : 0 <= E.

(** Position of the cell of depth [d] of a vertex. *)
Definition place (d : nat) (no : Z) : Z * Z * Z := let '(x, y, z) := pts no in (slab d x, slab d y, slab d z).

Lemma place_S d no ix iy iz i : place d no = (ix, iy, iz) -> quad (at_ pts d no) = i ->
  place (S d) no = (2 * ix + i mod 2, 2 * iy + i / 2 mod 2, 2 * iz + i / 4 mod 2).
Proof using. clear HE.
  unfold place, at_. destruct (pts no) as [[x y] z]. rewrite iter_halfp. intros Ep Eq. injection Ep as <- <- <-.
  unfold quad in Eq.
  destruct (bits_of _ _ _ (bit_range (Nat.iter d half x)) (bit_range (Nat.iter d half y)) (bit_range (Nat.iter d half z)))
    as (B1 & B2 & B3).
  rewrite Eq in B1, B2, B3. cbn [slab]. rewrite B1, B2, B3. reflexivity.
Qed.

Lemma leaves_good c : forall d k ix iy iz jx jy jz e cap l,
  good pts E d k c -> (forall x, code pts d x = k -> place d x = (ix, iy, iz)) ->
  In (jx, jy, jz, e, cap, l) (leaves ix iy iz d c) ->
  l <> [] /\ Z.of_nat (length l) <= cap /\ (e <= D)%nat /\ ((e < D)%nat -> Z.of_nat (length l) <= 2 ^ E) /\
  forall x, In x l -> 0 < x /\ place e x = (jx, jy, jz).
Proof using. clear HE.
  induction c as [nb dp v|nb dp v br IH]; intros d k ix iy iz jx jy jz e cap l G Hk Hin.
  - cbn [leaves] in Hin. destruct v as [[cap' l']|]; [|destruct Hin]. destruct Hin as [Eq|[]].
    injection Eq as <- <- <- <- <- <-. cbn [good] in G. destruct G as (_ & Hd & G1 & G2 & G3 & F).
    split; [intros ->; cbn in G1; lia|]. split; [lia|]. split; [exact Hd|]. split; [intros H; specialize (G3 H); lia|].
    intros x Hx. rewrite Forall_forall in F. destruct (F x Hx) as [F1 F2]. split; [exact F1|apply Hk; exact F2].
  - cbn [leaves] in Hin. apply in_flat_map in Hin. destruct Hin as (i & Hi & Hin). apply in_zrange in Hi.
    cbn [good] in G. destruct G as (_ & _ & _ & _ & _ & K).
    apply (IH i (S d) (8 * k + i) _ _ _ _ _ _ _ _ _ (K i ltac:(lia))) in Hin; [exact Hin|].
    intros x Hx. apply code_S in Hx; [|lia]. destruct Hx as [H1 H2]. apply place_S; [apply Hk; exact H1|exact H2].
Qed.

Lemma leaves_contents c : forall d ix iy iz, concat (map snd (leaves ix iy iz d c)) = contents c.
Proof using. clear HE.
  induction c as [nb dp v|nb dp v br IH]; intros d ix iy iz; cbn [leaves contents].
  - destruct v as [[cap l]|]; cbn; [apply app_nil_r|reflexivity].
  - induction (zrange 0 7) as [|i r IHr]; [reflexivity|]. cbn [flat_map]. rewrite map_app, concat_app, IHr, IH. reflexivity.
Qed.

Lemma counters_good c : forall d k, good pts E d k c -> counters c.
Proof using. clear HE.
  induction c as [nb dp v|nb dp v br IH]; intros d k G; cbn [good counters] in *.
  - destruct G as (_ & _ & G). destruct v as [[cap l]|]; [apply G|exact G].
  - destruct G as (_ & _ & _ & G1 & _ & K). split.
    + rewrite G1. f_equal. unfold flat. f_equal. apply flat_map_ext. intros i. symmetry. apply leaves_contents.
    + intros i Hi. apply (IH i (S d) (8 * k + i)). apply K. exact Hi.
Qed.

Lemma remove1_removed no l l' : removed no l l' -> Permutation (remove1 no l) l'.
Proof using. clear HE.
  intros [[Hin P]|[Hn P]].
  - assert (Q : Permutation l (no :: remove1 no l)).
    { clear P. induction l as [|a l IHl]; [destruct Hin|]. cbn. destruct (Z.eqb_spec a no) as [->|N]; [reflexivity|].
      destruct Hin as [|Hin]; [congruence|]. rewrite (IHl Hin) at 1. apply perm_swap. }
    rewrite Q in P. apply Permutation_cons_inv in P. exact P.
  - rewrite <- P. clear P. induction l as [|a l IHl]; [reflexivity|]. cbn. destruct (Z.eqb_spec a no) as [->|N].
    + exfalso. apply Hn. left. reflexivity.
    + constructor. apply IHl. intros H. apply Hn. right. exact H.
Qed.

Lemma remove1_perm no l l' : Permutation l l' -> Permutation (remove1 no l) (remove1 no l').
Proof using. clear HE.
  intros P. apply remove1_removed. destruct (in_dec Z.eq_dec no l) as [H|H].
  - left. split; [exact H|].
    assert (Q : Permutation l' (no :: remove1 no l')).
    { clear - P H. assert (H' : In no l') by (rewrite <- P; exact H). clear - H'. induction l' as [|a l IHl]; [destruct H'|]. cbn.
      destruct (Z.eqb_spec a no) as [->|N]; [reflexivity|]. destruct H' as [|Hin]; [congruence|]. rewrite (IHl Hin) at 1. apply perm_swap. }
    rewrite P. exact Q.
  - right. split; [exact H|].
    assert (H' : ~ In no l') by (rewrite <- P; exact H). rewrite P. clear - H'.
    induction l' as [|a l IHl]; [reflexivity|]. cbn. destruct (Z.eqb_spec a no) as [->|N].
    + exfalso. apply H'. left. reflexivity.
    + constructor. apply IHl. intros H. apply H'. right. exact H.
Qed.

Definition step_live (acc : list Z) (o : oop) : list Z :=
  match o with OAdd no => no :: acc | ODel no => remove1 no acc end.

Lemma ocall_ok o c acc : good pts E 0 0 c -> Permutation (contents c) acc ->
  match o with OAdd no => 0 < no | ODel _ => True end ->
  match ocall pts (2 ^ E) o c with
  | Ret c' => good pts E 0 0 c' /\ Permutation (contents c') (step_live acc o) /\
      (caps E c -> match o with OAdd no => crowd pts no acc < 3 * 2 ^ E | _ => True end -> caps E c')
  | Stuck => ~ (caps E c /\ match o with OAdd no => crowd pts no acc < 3 * 2 ^ E | _ => True end)
  end.
Proof using HE.
  intros G P Hp. destruct o as [no|no]; cbn [ocall step_live].
  - unfold add_vertex. pose proof (add_ok pts E HE add_fuel 0%nat 0 c no G eq_refl Hp) as A.
    change (at_ pts 0 no) with (pts no) in A. rewrite (crowd_perm _ _ _ _ P) in A.
    specialize (A ltac:(unfold fuel_for, add_fuel, D; destruct c; lia)).
    destruct (add_rec _ _ _ _ _ _) as [c'|]; [|exact A]. destruct A as (A1 & A2 & A3).
    split; [exact A1|]. split; [rewrite A2, P; reflexivity|exact A3].
  - unfold del_vertex. destruct (del_ok pts E HE c 0%nat 0 no G eq_refl) as (c' & Ec & G' & R & C).
    change (at_ pts 0 no) with (pts no) in Ec. rewrite Ec. split; [exact G'|]. split; [|auto].
    rewrite <- (remove1_removed _ _ _ R). apply remove1_perm. exact P.
Qed.

Lemma orun_ok l : forall c acc c', good pts E 0 0 c -> Permutation (contents c) acc -> positive_ops l ->
  orun pts (2 ^ E) l c = Ret c' ->
  good pts E 0 0 c' /\ Permutation (contents c') (fold_left step_live l acc).
Proof using HE.
  induction l as [|o l IH]; intros c acc c' G P F; cbn [orun fold_left].
  - intros Eq. injection Eq as <-. auto.
  - inversion F as [|? ? Ho Fl]; subst. pose proof (ocall_ok o c acc G P Ho) as A.
    destruct (ocall pts (2 ^ E) o c) as [c1|]; [|discriminate]. cbn [bind]. destruct A as (A1 & A2 & _).
    apply IH; assumption.
Qed.

Lemma orun_total l : forall c acc, good pts E 0 0 c -> caps E c -> Permutation (contents c) acc -> positive_ops l ->
  (forall l1 no l2, l = l1 ++ OAdd no :: l2 -> crowd pts no (fold_left step_live l1 acc) < 3 * 2 ^ E) ->
  exists c', orun pts (2 ^ E) l c = Ret c'.
Proof using HE.
  induction l as [|o l IH]; intros c acc G C P F H; cbn [orun].
  - eauto.
  - inversion F as [|? ? Ho Fl]; subst. pose proof (ocall_ok o c acc G P Ho) as A.
    assert (Ho' : match o with OAdd no => crowd pts no acc < 3 * 2 ^ E | _ => True end).
    { destruct o as [no|]; [|exact I]. apply (H [] no l eq_refl). }
    destruct (ocall pts (2 ^ E) o c) as [c1|]; [|exfalso; apply A; auto]. cbn [bind]. destruct A as (A1 & A2 & A3).
    apply (IH c1 (step_live acc o)); auto. intros l1 no l2 El. apply (H (o :: l1) no l2). cbn. f_equal. exact El.
Qed.

End Props.

Lemma init_good pts E : good pts E 0 0 init_cell.
Proof. cbn. unfold D. split; [reflexivity|]. split; [lia|reflexivity]. Qed.

(** ** The tree *)

(** After any history the terminal cells hold exactly the inserted and not deleted
    vertices; the counters are exact; no table holds more items than allocated; only
    cells of the finest level (20) hold more than [nv] vertices. *)
Theorem C23_contents : forall pts E ops c, 0 <= E -> positive_ops ops -> orun pts (2 ^ E) ops init_cell = Ret c ->
  Permutation (concat (map snd (leaves 0 0 0 0 c))) (live ops) /\ counters c /\
  forall ix iy iz d cap l, In (ix, iy, iz, d, cap, l) (leaves 0 0 0 0 c) ->
    Z.of_nat (length l) <= cap /\ (d <= 20)%nat /\ ((d < 20)%nat -> Z.of_nat (length l) <= 2 ^ E).
Proof.
  intros pts E ops c HE F Er.
  destruct (orun_ok pts E HE ops init_cell [] c (init_good pts E) (Permutation_refl _) F Er) as (G & P).
  split; [|split].
  - rewrite leaves_contents. exact P.
  - apply (counters_good pts E c 0%nat 0 G).
  - intros ix iy iz d cap l Hin.
    destruct (leaves_good pts E c 0%nat 0 0 0 0 ix iy iz d cap l G) as (_ & A & B & C & _); [|exact Hin|].
    + intros x _. unfold place. destruct (pts x) as [[? ?] ?]. reflexivity.
    + auto.
Qed.
Print Assumptions C23_contents.

(** Every vertex of the tree lies in the box of its cell. *)
Theorem C23_cells : forall pts E ops c, 0 <= E -> positive_ops ops -> orun pts (2 ^ E) ops init_cell = Ret c ->
  forall ix iy iz d cap l no, In (ix, iy, iz, d, cap, l) (leaves 0 0 0 0 c) -> In no l -> unit_pt (pts no) ->
  in_box ix iy iz d (pts no).
Proof.
  intros pts E ops c HE F Er ix iy iz d cap l no Hin Hno Hu.
  destruct (orun_ok pts E HE ops init_cell [] c (init_good pts E) (Permutation_refl _) F Er) as (G & _).
  destruct (leaves_good pts E c 0%nat 0 0 0 0 ix iy iz d cap l G) as (_ & _ & _ & _ & A); [|exact Hin|].
  - intros x _. unfold place. destruct (pts x) as [[? ?] ?]. reflexivity.
  - destruct (A no Hno) as [_ Ep]. unfold place in Ep. unfold unit_pt, in_box in *. destruct (pts no) as [[x y] z].
    injection Ep as <- <- <-. destruct Hu as (Hx & Hy & Hz). split; [|split]; apply slab_in; assumption.
Qed.
Print Assumptions C23_cells.

(** Two vertices lie in the same cell of the finest level. *)
Definition same_finest (pts : Z -> pt) (a b : Z) : bool :=
  let '(x, y, z) := pts a in let '(x', y', z') := pts b in
  (slab 20 x =? slab 20 x') && (slab 20 y =? slab 20 y') && (slab 20 z =? slab 20 z').

Lemma same_finest_code pts a b : same_finest pts a b = (code pts D a =? code pts D b).
Proof.
  assert (H : forall d, (code pts d a =? code pts d b) =
    (let '(x, y, z) := pts a in let '(x', y', z') := pts b in
     (slab d x =? slab d x') && (slab d y =? slab d y') && (slab d z =? slab d z'))).
  2:{ symmetry. apply H. }
  induction d as [|d IH].
  - cbn. destruct (pts a) as [[? ?] ?], (pts b) as [[? ?] ?]. reflexivity.
  - cbn [code]. unfold at_ in *. destruct (pts a) as [[x y] z] eqn:Ea, (pts b) as [[x' y'] z'] eqn:Eb.
    rewrite !iter_halfp. unfold quad. cbn [slab].
    pose proof (bit_range (Nat.iter d half x)). pose proof (bit_range (Nat.iter d half y)). pose proof (bit_range (Nat.iter d half z)).
    pose proof (bit_range (Nat.iter d half x')). pose proof (bit_range (Nat.iter d half y')). pose proof (bit_range (Nat.iter d half z')).
    clear - IH H H0 H1 H2 H3 H4. lia.
Qed.

(** Nothing goes wrong as long as at most [3*nv] vertices share a cell of side
    [2^-20]. *)
Theorem C23_no_abort_partial : forall pts E ops, 0 <= E -> positive_ops ops ->
  (forall l1 no l2, ops = l1 ++ OAdd no :: l2 ->
     Z.of_nat (length (filter (fun x => same_finest pts x no) (live l1))) < 3 * 2 ^ E) ->
  exists c, orun pts (2 ^ E) ops init_cell = Ret c.
Proof.
  intros pts E ops HE F H. apply (orun_total pts E HE ops init_cell []).
  - apply init_good.
  - exact I.
  - apply Permutation_refl.
  - exact F.
  - intros l1 no l2 El. specialize (H l1 no l2 El). unfold crowd, live in *.
    rewrite (filter_ext _ _ (fun x => eq_sym (same_finest_code pts x no))). exact H.
Qed.
Print Assumptions C23_no_abort_partial.

(** ** The number of vertices per cell *)

Lemma spread n x w : 0 <= n -> 0 < w ->
  (forall i, 0 <= i -> Z.testbit x i = true <-> exists t, 0 <= t < w /\ Z.testbit n (i + t) = true) ->
  forall i, 0 <= i -> Z.testbit (Z.lor x (Z.shiftr x w)) i = true <-> exists t, 0 <= t < 2 * w /\ Z.testbit n (i + t) = true.
Proof.
  intros Hn Hw H i Hi. rewrite Z.lor_spec, orb_true_iff, Z.shiftr_spec by exact Hi.
  rewrite (H i Hi), (H (i + w)) by lia. split.
  - intros [(t & Ht & B)|(t & Ht & B)]; [exists t|exists (w + t)]; (split; [lia|]); [exact B|].
    replace (i + (w + t)) with (i + w + t) by lia. exact B.
  - intros (t & Ht & B). destruct (Z.lt_ge_cases t w); [left; exists t; split; [lia|exact B]|right].
    exists (t - w). split; [lia|]. replace (i + w + (t - w)) with (i + t) by lia. exact B.
Qed.

(** The rounding of the number of vertices per cell gives the next power of 2: the
    shape of [nv] in the theorems above. *)
Theorem C23_round : forall nv, 1 <= nv <= 2 ^ 31 -> exists E, 0 <= E /\ round_nv nv = 2 ^ E /\ nv <= 2 ^ E < 2 * nv.
Proof.
  intros nv Hnv. unfold round_nv. remember (nv - 1) as n eqn:En. cbv zeta.
  assert (Hn : 0 <= n < 2 ^ 31) by lia.
  destruct (Z.eq_dec n 0) as [E0|N0].
  { exists 0. rewrite E0. change (2 ^ 0) with 1. split; [lia|]. split; [reflexivity|]. lia. }
  assert (B0 : forall i, 0 <= i -> Z.testbit n i = true <-> exists t, 0 <= t < 1 /\ Z.testbit n (i + t) = true).
  { intros i Hi. split.
    - intros B. exists 0. rewrite Z.add_0_r. split; [lia|exact B].
    - intros (t & Ht & B). replace (i + t) with i in B by lia. exact B. }
  pose proof (spread n _ 1 ltac:(lia) ltac:(lia) B0) as B1. set (x1 := Z.lor n (Z.shiftr n 1)) in *.
  pose proof (spread n _ 2 ltac:(lia) ltac:(lia) B1) as B2. set (x2 := Z.lor x1 (Z.shiftr x1 2)) in *.
  pose proof (spread n _ 4 ltac:(lia) ltac:(lia) B2) as B3. set (x3 := Z.lor x2 (Z.shiftr x2 4)) in *.
  pose proof (spread n _ 8 ltac:(lia) ltac:(lia) B3) as B4. set (x4 := Z.lor x3 (Z.shiftr x3 8)) in *.
  pose proof (spread n _ 16 ltac:(lia) ltac:(lia) B4) as B5. set (x5 := Z.lor x4 (Z.shiftr x4 16)) in *.
  assert (L : 0 <= Z.log2 n < 31).
  { split; [apply Z.log2_nonneg|]. apply Z.log2_lt_pow2; lia. }
  assert (Ex : x5 = Z.ones (Z.log2 n + 1)).
  { apply Z.bits_inj'. intros i Hi.
    destruct (Z.lt_ge_cases i (Z.log2 n + 1)) as [Hlt|Hge].
    - rewrite Z.ones_spec_low by lia. apply B5; [exact Hi|]. exists (Z.log2 n - i). split; [lia|].
      replace (i + (Z.log2 n - i)) with (Z.log2 n) by lia. apply Z.bit_log2. lia.
    - rewrite Z.ones_spec_high by lia. destruct (Z.testbit x5 i) eqn:Eb; [|reflexivity].
      apply B5 in Eb; [|exact Hi]. destruct Eb as (t & Ht & B). rewrite Z.bits_above_log2 in B by lia. discriminate. }
  exists (Z.log2 n + 1). split; [lia|]. rewrite Ex, Z.ones_equiv.
  pose proof (Z.log2_spec n ltac:(lia)) as [L1 L2]. rewrite Z.pow_succ_r in L2 by lia.
  rewrite Z.pow_add_r by lia. change (2 ^ 1) with 2. split; [lia|]. lia.
Qed.
Print Assumptions C23_round.

(** ** Cases *)

Definition grid_pts (no : Z) : pt :=
  (inject_Z (no mod 3) * (3 # 10), inject_Z (no / 3 mod 3) * (2 # 5), inject_Z (no / 9) * (1 # 7))%Q.

Definition case23 : list oop :=
  map (fun n => OAdd (Z.of_nat n)) (seq 1 20) ++ [ODel 7; ODel 30; ODel 8] ++ map (fun n => ODel (Z.of_nat n)) (seq 10 8) ++ [OAdd 7].

Example C23_case_hyps : positive_ops case23 /\
  forall l1 no l2, case23 = l1 ++ OAdd no :: l2 -> Z.of_nat (length (filter (fun x => same_finest grid_pts x no) (live l1))) < 3 * 2 ^ 2.
Proof.
  split; [repeat constructor|]. intros l1 no l2 Es.
  assert (Hl : (length l1 < length case23)%nat) by (rewrite Es, app_length; cbn; lia).
  assert (E1 : l1 = firstn (length l1) case23) by (rewrite Es, firstn_app, Nat.sub_diag, firstn_all; cbn; rewrite app_nil_r; reflexivity).
  assert (E2 : nth (length l1) case23 (ODel 0) = OAdd no) by (rewrite Es, app_nth2, Nat.sub_diag by lia; reflexivity).
  rewrite E1. clear Es E1.
  assert (All : forallb (fun n => match nth n case23 (ODel 0) with
      | OAdd no => Z.of_nat (length (filter (fun x => same_finest grid_pts x no) (live (firstn n case23)))) <? 12
      | _ => true end) (seq 0 (length case23)) = true) by (vm_compute; reflexivity).
  rewrite forallb_forall in All. specialize (All (length l1)). rewrite E2 in All.
  change (3 * 2 ^ 2) with 12. apply Z.ltb_lt. apply All. apply in_seq. lia.
Qed.

Definition show (c : cell) := map (fun '(x, y, z, d, cap, l) => (x, y, z, Z.of_nat d, cap, l)) (leaves 0 0 0 0 c).

(** Twenty insertions with subdivisions, then deletions with a merge. *)
Example C23_case_add : (c <- orun grid_pts 4 (firstn 20 case23) init_cell ;; Ret (nbv c, show c)) =
  Ret (20, [(0, 0, 0, 2, 1, [9]); (1, 0, 0, 2, 2, [1; 10]); (0, 1, 0, 2, 2, [3; 12]); (1, 1, 0, 2, 2, [4; 13]);
            (0, 0, 1, 2, 1, [18]); (1, 0, 1, 2, 1, [19]); (2, 0, 0, 2, 2, [2; 11]); (2, 1, 0, 2, 2, [5; 14]);
            (2, 0, 1, 2, 1, [20]); (0, 1, 0, 1, 4, [6; 7; 15; 16]); (1, 1, 0, 1, 2, [8; 17])]).
Proof. vm_compute. reflexivity. Qed.

Example C23_case : (c <- orun grid_pts 4 case23 init_cell ;; Ret (nbv c, show c)) =
  Ret (11, [(0, 0, 0, 2, 1, [9]); (1, 0, 0, 2, 1, [1]); (0, 1, 0, 2, 1, [3]); (1, 1, 0, 2, 1, [4]);
            (0, 0, 1, 2, 1, [18]); (1, 0, 1, 2, 1, [19]); (1, 0, 0, 1, 4, [2; 5; 20]); (0, 1, 0, 1, 2, [6; 7])]).
Proof. vm_compute. reflexivity. Qed.

(** ** Refuted part *)

(** In a cell of the finest level that once held more than [3*nv] vertices the size
    given to the reallocation may differ from the size of the table: the assertion
    of [myrealloc] fails.  Here with the default number of vertices per cell. *)
Definition dense_pts (no : Z) : pt := (no # 2 ^ 27, 1 # 3, 1 # 3)%Q.

Definition case23b : list oop := map (fun n => OAdd (Z.of_nat n)) (seq 1 97) ++ [ODel 97; OAdd 97].

Theorem C23_finest_cell_refuted : exists pts ops, positive_ops ops /\ (forall no, In (OAdd no) ops -> unit_pt (pts no)) /\
  (forall a b, In (OAdd a) ops -> In (OAdd b) ops -> pts a = pts b -> a = b) /\ NoDup (live ops) /\
  orun pts 32 ops init_cell = Stuck.
Proof.
  exists dense_pts, case23b.
  assert (R : forall no, In (OAdd no) case23b -> 1 <= no <= 97).
  { intros no H. apply in_app_or in H. destruct H as [H|[H|[H|[]]]]; [|discriminate|].
    - apply in_map_iff in H. destruct H as (n & E & H). apply in_seq in H. injection E as <-. lia.
    - injection H as <-. lia. }
  split; [|split; [|split; [|split]]].
  - unfold case23b, positive_ops. apply Forall_app. split; [|repeat constructor]. apply Forall_forall. intros o Ho.
    apply in_map_iff in Ho. destruct Ho as (n & <- & Hn). apply in_seq in Hn. lia.
  - intros no H. specialize (R no H). unfold unit_pt, dense_pts, Qle. cbn [Qnum Qden]. lia.
  - intros a b _ _ E. unfold dense_pts in E. congruence.
  - assert (E : live case23b = map Z.of_nat (97%nat :: rev (seq 1 96))) by (vm_compute; reflexivity). rewrite E.
    apply FinFun.Injective_map_NoDup; [intros a b H; lia|]. constructor.
    + rewrite <- in_rev, in_seq. lia.
    + apply NoDup_rev. apply seq_NoDup.
  - vm_compute. reflexivity.
Qed.
Print Assumptions C23_finest_cell_refuted.
