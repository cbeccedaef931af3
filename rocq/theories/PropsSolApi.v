(** C62, C63, C64: the solutions given and read through the API. *)
From Coq Require Import ZArith List Bool Lia.
From Verif Require Import CBase SolApi SolApiProofs.
Import ListNotations.
Open Scope Z_scope.

(** ** What the user expects *)

Section Spec.
Variable V : Type.
Variable v0 : V.
Variable p : prog.

(** A field: nothing yet, or a kind of values, a number of vertices, the values
    and the vertex read last. *)
Inductive field : Type :=
| Empty
| Filled (k : kind) (np : Z) (val : Z -> list V) (last : Z).

(** The number of values at a vertex. *)
Definition width (k : kind) : nat :=
  match k, p with
  | Scalar, _ => 1
  | Vector, Mmg2d => 2
  | Vector, _ => 3
  | Tensor, Mmg2d => 3
  | Tensor, _ => 6
  end%nat.

(** The values of the vertex [pos] in an array of the user. *)
Definition row (k : kind) (u : arr V) (pos : Z) : list V :=
  map (fun c => aget u (Z.of_nat (width k) * (pos - 1) + Z.of_nat c)) (seq 0 (width k)).

Definition vertices (np : Z) : list Z := map Z.of_nat (seq 1 (Z.to_nat np)).

(** The result of each call (returned integer and values) and its effect. *)
Definition expected (fd : field) (c : call V) : Z * list V * field :=
  match c, fd with
  | Size _ e np t _, _ =>
      if negb (e =? 1) then (0, [], fd)
      else match kind_of t with
           | Some k => (1, [], Filled k np (fun _ => repeat v0 (width k)) np)
           | None => (0, [], fd)
           end
  | SetOne _ vs pos, Filled k np val last =>
      if (1 <=? pos) && (pos <=? np)
      then (1, [], Filled k np (fun q => if q =? pos then vs else val q) last)
      else (0, [], fd)
  | GetOne _, Filled k np val last =>
      let q := if last =? np then 1 else last + 1 in (1, val q, Filled k np val q)
  | SetAll _ u, Filled k np val last => (1, [], Filled k np (row k u) last)
  | GetAll _, Filled k np val last => (1, concat (map val (vertices np)), fd)
  | SetTyped vs pos, Filled k np val last =>
      (1, [], Filled k np (fun q => if q =? pos then vs else val q) last)
  | GetTyped pos, Filled k np val last => (1, val pos, Filled k np val pos)
  | SetTypedAll u, Filled k np val last => (1, [], Filled k np (row k u) last)
  | GetTypedAll, Filled k np val last => (1, concat (map val (vertices np)), fd)
  | GetAll _, Empty => (1, [], Empty)
  | _, Empty => (0, [], Empty)
  end.

(** The calls that are meant: the functions of the kind of the field, arguments of
    the right length, sizes below the capacity of the mesh and granted; positions
    from 1 where the function does not test them. *)
Definition meant (fd : field) (c : call V) : Prop :=
  match c, fd with
  | Size mmax e np t g, _ => e <> 1 \/ (kind_of t <> None /\ 1 <= np < mmax /\ g = true)
  | SetOne k vs pos, Filled k' np _ _ =>
      k = k' /\ length vs = width k /\ (p = Mmg2d /\ k <> Vector -> 1 <= pos)
  | GetOne k, Filled k' _ _ _ => k = k'
  | SetAll k u, Filled k' np _ _ => k = k' /\ Z.of_nat (width k) * np <= alen u
  | GetAll k, Filled k' _ _ _ => k = k'
  | SetTyped vs pos, Filled k np _ _ => length vs = width k /\ 1 <= pos <= np
  | GetTyped pos, Filled k np _ _ => 1 <= pos <= np
  | SetTypedAll u, Filled k np _ _ => Z.of_nat (width k) * np <= alen u
  | GetTypedAll, Filled _ _ _ _ => True
  | SetTyped _ _, Empty => False
  | GetTyped _, Empty => False
  | SetTypedAll _, Empty => False
  | GetTypedAll, Empty => False
  | _, Empty => True
  end.

Definition change (F : Z -> field) (i : Z) (fd : field) : Z -> field :=
  fun j => if j =? i then fd else F j.

Fixpoint all_meant (n : Z) (F : Z -> field) (cs : list (Z * call V)) : Prop :=
  match cs with
  | [] => True
  | (i, c) :: cs => 1 <= i <= n /\ meant (F i) c /\
      all_meant n (change F i (snd (expected (F i) c))) cs
  end.

Fixpoint answers (F : Z -> field) (cs : list (Z * call V)) : list (Z * list V) :=
  match cs with
  | [] => []
  | (i, c) :: cs => fst (expected (F i) c) :: answers (change F i (snd (expected (F i) c))) cs
  end.

Fixpoint after (F : Z -> field) (cs : list (Z * call V)) : Z -> field :=
  match cs with
  | [] => F
  | (i, c) :: cs => after (change F i (snd (expected (F i) c))) cs
  end.

(** A structure that has not been used. *)
Definition new_sol (s : sol V) : Prop := so_np V s = 0 /\ so_npi V s = 0.

(** ** Proofs *)

Definition rep (fd : field) (s : sol V) : Prop :=
  match fd with
  | Empty => so_np V s = 0 /\ 0 <= so_npi V s
  | Filled k np val last =>
      so_np V s = np /\ so_npi V s = last /\ 1 <= last <= np /\ np < so_npmax V s /\
      so_size V s = ncomp p k /\ kind_of (so_type V s) = Some k /\
      alen (so_m V s) = ncomp p k * (so_npmax V s + 1) /\
      forall pos, 1 <= pos <= np -> length (val pos) = width k /\
        take V (so_m V s) (place_all p k pos) (width k) = Ret (val pos)
  end.

Lemma width_n k : Z.of_nat (width k) = ncomp p k.
Proof. unfold width. destruct k, p; reflexivity. Qed.
Lemma width_to k : Z.to_nat (ncomp p k) = width k.
Proof. rewrite <- width_n. apply Nat2Z.id. Qed.

Lemma take_zero n : forall b len, 0 <= b -> b + Z.of_nat n <= len -> take V (acalloc len v0) b n = Ret (repeat v0 n).
Proof.
  induction n as [|n IH]; intros b len Hb Hl; cbn [take repeat]; [reflexivity|].
  rewrite rd_ok by (cbn; lia). cbn [bind]. rewrite IH by lia. reflexivity.
Qed.

Lemma set_rep k np val last s vs pos : rep (Filled k np val last) s -> length vs = width k -> 1 <= pos <= np ->
  exists m, put V (so_m V s) (place_all p k pos) vs = Ret m /\
    rep (Filled k np (fun q => if q =? pos then vs else val q) last) (set_m V m s).
Proof.
  intros (E1 & E2 & E3 & E4 & E5 & E6 & E7 & E8) Hl Hp.
  destruct (place_range p k pos np (so_npmax V s) Hp E4) as [P1 P2].
  destruct (put_full (so_m V s) (place_all p k pos) vs) as (m & E & L & T & O).
  { exact P1. }
  { rewrite Hl, width_n, E7. exact P2. }
  exists m. split; [exact E|]. cbn. do 6 (split; [assumption|]). split; [congruence|].
  intros q Hq. destruct (Z.eqb_spec q pos) as [-> | N].
  - split; [exact Hl|]. rewrite <- Hl. exact T.
  - destruct (E8 q Hq) as [X1 X2]. split; [exact X1|]. rewrite O; [exact X2|].
    rewrite Hl, !width_n. apply place_apart. exact N.
Qed.

Lemma one_set k np val last s vs pos : rep (Filled k np val last) s -> length vs = width k ->
  (p = Mmg2d /\ k <> Vector -> 1 <= pos) ->
  exists s', set_one V p k s vs pos = Ret (if (1 <=? pos) && (pos <=? np) then 1 else 0, s') /\
    rep (if (1 <=? pos) && (pos <=? np) then Filled k np (fun q => if q =? pos then vs else val q) last
         else Filled k np val last) s'.
Proof.
  intros R Hl Hlow. pose proof R as (E1 & E2 & E3 & E4 & E5 & E6 & E7 & E8).
  unfold set_one. replace (so_np V s =? 0) with false by lia.
  destruct (Z.leb_spec 1 pos) as [L1 | L1]; cbn [andb].
  - replace (tests_low p k && (pos <? 1)) with false by (destruct (tests_low p k); cbn; lia).
    destruct (Z.leb_spec pos np) as [L2 | L2].
    + replace (pos >=? so_npmax V s) with false by lia. replace (pos >? so_np V s) with false by lia.
      rewrite place_eq by exact E5. destruct (set_rep k np val last s vs pos R Hl) as (m & E & R'); [lia|].
      rewrite E. cbn [bind]. eauto.
    + replace (pos >? so_np V s) with true by lia. destruct (pos >=? so_npmax V s); eauto.
  - assert (T : tests_low p k = true).
    { destruct (tests_low p k) eqn:T; [reflexivity|]. exfalso. assert (1 <= pos); [|lia].
      apply Hlow. destruct p, k; try discriminate T; split; congruence. }
    rewrite T. replace (pos <? 1) with true by lia. cbn. eauto.
Qed.

Lemma one_get k np val last s : rep (Filled k np val last) s ->
  let q := if last =? np then 1 else last + 1 in
  exists s', get_one V p k s = Ret (1, val q, s') /\ rep (Filled k np val q) s'.
Proof.
  intros R q. pose proof R as (E1 & E2 & E3 & E4 & E5 & E6 & E7 & E8).
  unfold get_one. rewrite E1, E2.
  replace ((if last =? np then 0 else last) + 1) with q by (unfold q; destruct (last =? np); lia).
  assert (Hq : 1 <= q <= np) by (unfold q; destruct (Z.eqb_spec last np); lia).
  cbn [set_npi so_np so_m]. rewrite E1. replace (q >? np) with false by lia.
  rewrite place_eq by exact E5. rewrite width_to. destruct (E8 q Hq) as [_ T]. rewrite T. cbn [bind].
  eexists. split; [reflexivity|]. cbn. repeat (split; [first [assumption | lia | reflexivity]|]). exact E8.
Qed.

Lemma all_set k np val last s u : rep (Filled k np val last) s -> Z.of_nat (width k) * np <= alen u ->
  exists s', set_all V p k s u = Ret (1, s') /\ rep (Filled k np (row k u) last) s'.
Proof.
  intros R Hu. pose proof R as (E1 & E2 & E3 & E4 & E5 & E6 & E7 & E8).
  unfold set_all. replace (so_np V s =? 0) with false by lia.
  destruct (@for_range_inv _ (fun pos m => alen m = alen (so_m V s) /\
      forall q, 1 <= q < pos -> take V m (place_all p k q) (width k) = Ret (row k u q))
    (fun pos m => vs <- take V u (ncomp p k * (pos - 1)) (Z.to_nat (ncomp p k)) ;; put V m (place_all p k pos) vs)
    1 (so_np V s) (so_m V s)) as (m & E & L & T).
  - lia.
  - split; [reflexivity|]. intros q Hq. lia.
  - intros pos m Hp [L T]. pose proof (ncomp_pos p k) as Hn. rewrite width_to, <- width_n.
    rewrite take_slice; [|nia|].
    2: { rewrite E1 in Hp. rewrite <- width_n in Hn. nia. }
    cbn [bind]. change (slice u (Z.of_nat (width k) * (pos - 1)) (width k)) with (row k u pos).
    assert (Lr : length (row k u pos) = width k) by (unfold row; rewrite map_length, seq_length; reflexivity).
    destruct (place_range p k pos np (so_npmax V s)) as [P1 P2]; [lia | exact E4 |].
    destruct (put_full m (place_all p k pos) (row k u pos)) as (m' & E & L' & T' & O).
    { exact P1. }
    { rewrite Lr, width_n, L, E7. exact P2. }
    exists m'. split; [exact E|]. split; [congruence|]. intros q Hq.
    destruct (Z.eq_dec q pos) as [-> | N]; [rewrite <- Lr at 1; exact T'|].
    rewrite O; [apply T; lia|]. rewrite Lr, !width_n. apply place_apart. exact N.
  - rewrite E. cbn [bind]. eexists. split; [reflexivity|]. cbn. do 6 (split; [assumption|]). split; [congruence|].
    intros q Hq. split; [unfold row; rewrite map_length, seq_length; reflexivity|]. apply T. lia.
Qed.

Lemma vertices_snoc n : 0 <= n -> vertices (n + 1) = vertices n ++ [n + 1].
Proof.
  intros H. unfold vertices. replace (Z.to_nat (n + 1)) with (Z.to_nat n + 1)%nat by lia.
  rewrite seq_app, map_app. cbn. repeat f_equal. lia.
Qed.

Lemma all_get k np val last s : rep (Filled k np val last) s ->
  get_all V p k s = Ret (1, concat (map val (vertices np)), s).
Proof.
  intros R. pose proof R as (E1 & E2 & E3 & E4 & E5 & E6 & E7 & E8). unfold get_all.
  destruct (@for_range_inv _ (fun pos l => l = concat (map val (vertices (pos - 1))))
    (fun pos l => vs <- take V (so_m V s) (place_all p k pos) (Z.to_nat (ncomp p k)) ;; Ret (l ++ vs))
    1 (so_np V s) []) as (l & E & ->).
  - lia.
  - reflexivity.
  - intros pos l Hp ->. rewrite width_to. destruct (E8 pos) as [_ T]; [lia|]. rewrite T. cbn [bind].
    eexists. split; [reflexivity|]. replace (pos + 1 - 1) with ((pos - 1) + 1) by lia.
    rewrite vertices_snoc by lia. rewrite map_app, concat_app. cbn. rewrite app_nil_r.
    replace (pos - 1 + 1) with pos by lia. reflexivity.
  - rewrite E. cbn [bind]. rewrite E1. replace (np + 1 - 1) with np by lia. reflexivity.
Qed.

Lemma step fd s c : rep fd s -> meant fd c ->
  exists s', do_call V v0 p c s = Ret (fst (expected fd c), s') /\ rep (snd (expected fd c)) s'.
Proof.
  intros R M. destruct c as [mmax e np t g | k vs pos | k | k u | k | vs pos | pos | u | ].
  - cbn [do_call expected]. unfold set_size, quiet, E_VERTEX.
    destruct (Z.eqb_spec e 1) as [-> | N]; cbn [negb]; [|eauto].
    destruct M as [C | (Kt & Hn & ->)]; [congruence|].
    destruct (kind_of t) as [k|] eqn:Ek; [|congruence]. cbn [set_kind so_size negb].
    replace (np =? 0) with false by lia. eexists. split; [reflexivity|]. cbn [snd rep so_np so_npi so_npmax so_size so_type so_m].
    do 2 (split; [reflexivity|]). split; [lia|]. split; [lia|]. split; [reflexivity|]. split; [exact Ek|].
    split; [reflexivity|]. intros q Hq. split; [apply repeat_length|].
    destruct (place_range p k q np mmax) as [P1 P2]; [lia | lia |].
    apply take_zero; [exact P1 | rewrite width_n; exact P2].
  - destruct fd as [|k' np val last]; cbn [do_call expected meant] in *.
    + destruct R as [R1 R2]. unfold set_one. rewrite R1. cbn. eexists; split; [reflexivity|]. split; assumption.
    + destruct M as (-> & Hl & Hlow). destruct (one_set k' np val last s vs pos R Hl Hlow) as (s' & E & R').
      rewrite E. cbn [bind quiet]. exists s'. destruct ((1 <=? pos) && (pos <=? np)); split; auto.
  - destruct fd as [|k' np val last]; cbn [do_call expected meant] in *.
    + destruct R as [R1 R2]. unfold get_one. rewrite R1. cbn [set_npi so_np]. rewrite R1.
      assert (X : (if so_npi V s =? 0 then 0 else so_npi V s) + 1 > 0) by (destruct (so_npi V s =? 0); lia).
      replace (_ >? 0) with true by lia.
      eexists. split; [reflexivity|]. cbn. split; [assumption | lia].
    + subst k'. destruct (one_get k np val last s R) as (s' & E & R'). exists s'. split; assumption.
  - destruct fd as [|k' np val last]; cbn [do_call expected meant] in *.
    + destruct R as [R1 R2]. unfold set_all. rewrite R1. cbn. eexists; split; [reflexivity|]. split; assumption.
    + destruct M as (-> & Hu). destruct (all_set k' np val last s u R Hu) as (s' & E & R').
      rewrite E. cbn [bind quiet]. exists s'. split; [reflexivity | exact R'].
  - destruct fd as [|k' np val last]; cbn [do_call expected meant] in *.
    + destruct R as [R1 R2]. unfold get_all. rewrite R1. cbn. eexists; split; [reflexivity|]. split; assumption.
    + subst k'. rewrite (all_get k np val last s R). exists s. split; [reflexivity | exact R].
  - destruct fd as [|k np val last]; cbn [do_call expected meant] in *; [contradiction|].
    destruct M as (Hl & Hp). pose proof R as (_ & _ & _ & _ & _ & E6 & _). unfold set_typed. rewrite E6.
    destruct (one_set k np val last s vs pos R Hl (fun _ => proj1 Hp)) as (s' & E & R').
    replace ((1 <=? pos) && (pos <=? np)) with true in * by lia. exists s'. split; [|exact R'].
    destruct k; rewrite E; reflexivity.
  - destruct fd as [|k np val last]; cbn [do_call expected meant] in *; [contradiction|].
    pose proof R as (E1 & E2 & E3 & E4 & E5 & E6 & E7 & E8). unfold get_typed.
    cbn [set_npi so_type]. rewrite E6.
    assert (X : exists s', get_one V p k (set_npi V (pos - 1) s) = Ret (1, val pos, s') /\ rep (Filled k np val pos) s').
    { unfold get_one. cbn [set_npi so_npi so_np so_m]. rewrite E1. replace (pos - 1 =? np) with false by lia.
      replace (pos - 1 + 1) with pos by lia. replace (pos >? np) with false by lia.
      rewrite place_eq by exact E5. rewrite width_to. destruct (E8 pos M) as [_ T]. rewrite T. cbn [bind].
      eexists. split; [reflexivity|]. cbn. repeat (split; [first [assumption | lia | reflexivity]|]). exact E8. }
    destruct X as (s' & E & R'). exists s'. split; [|exact R']. destruct k; rewrite E; reflexivity.
  - destruct fd as [|k np val last]; cbn [do_call expected meant] in *; [contradiction|].
    pose proof R as (_ & _ & _ & _ & _ & E6 & _). unfold set_typed_all. rewrite E6.
    destruct (all_set k np val last s u R M) as (s' & E & R').
    exists s'. split; [|exact R']. destruct k; rewrite E; reflexivity.
  - destruct fd as [|k np val last]; cbn [do_call expected meant] in *; [contradiction|].
    pose proof R as (_ & _ & _ & _ & _ & E6 & _). unfold get_typed_all. rewrite E6.
    rewrite (all_get k np val last s R). exists s. split; [reflexivity | exact R].
Qed.

Lemma steps cs : forall F sols n, alen sols = n -> (forall i, 1 <= i <= n -> rep (F i) (aget sols (i - 1))) ->
  all_meant n F cs ->
  exists sols', do_calls V v0 p cs sols = Ret (answers F cs, sols') /\ alen sols' = n /\
    forall i, 1 <= i <= n -> rep (after F cs i) (aget sols' (i - 1)).
Proof.
  induction cs as [|[i c] cs IH]; intros F sols n L R M; cbn [do_calls answers after all_meant] in *.
  - exists sols. auto.
  - destruct M as (Hi & M & Ms). rewrite rd_ok by lia. cbn [bind].
    destruct (step (F i) _ c (R i Hi) M) as (s' & E & R'). rewrite E. 
    destruct (fst (expected (F i) c)) as [r vs] eqn:Ef. cbn [bind]. rewrite wr_ok by lia. cbn [bind].
    destruct (IH (change F i (snd (expected (F i) c))) (mkArr (alen sols) (upd (aget sols) (i - 1) s')) n)
      as (sols' & E' & L' & R''); [exact L | | exact Ms |].
    + intros j Hj. cbn [aget]. unfold change. destruct (Z.eqb_spec j i) as [-> | N].
      * rewrite upd_same. exact R'.
      * rewrite upd_other by lia. apply R. exact Hj.
    + rewrite E'. cbn [bind]. exists sols'. auto.
Qed.

End Spec.

Arguments Empty {V}.
Arguments Filled {V}.

(** ** C62 *)

(** Every history of calls on the fields of an array gives the answers expected. *)
Theorem solutions_read_back : forall V v0 p (sols : arr (sol V)) cs,
  (forall i, 1 <= i <= alen sols -> new_sol V (aget sols (i - 1))) ->
  all_meant V v0 p (alen sols) (fun _ => Empty) cs ->
  exists sols', do_calls V v0 p cs sols = Ret (answers V v0 p (fun _ => Empty) cs, sols').
Proof.
  intros V v0 p sols cs N M.
  destruct (steps V v0 p cs (fun _ => Empty) sols (alen sols) eq_refl) as (sols' & E & _); [| exact M | eauto].
  intros i Hi. destruct (N i Hi) as [N1 N2]. cbn. rewrite N1, N2. split; lia.
Qed.

(** ** C64 *)

(** And the program uses, for each vertex, the values given for that vertex,
    but for the vectors of Mmg2d. *)
Theorem solutions_used_partial : forall V v0 p (sols : arr (sol V)) cs,
  (forall i, 1 <= i <= alen sols -> new_sol V (aget sols (i - 1))) ->
  all_meant V v0 p (alen sols) (fun _ => Empty) cs ->
  exists rs sols', do_calls V v0 p cs sols = Ret (rs, sols') /\
    forall i k np val last, 1 <= i <= alen sols -> after V v0 p (fun _ => Empty) cs i = Filled k np val last ->
      (p = Mmg2d -> k <> Vector) ->
      forall pos, 1 <= pos <= np -> used_value V (aget sols' (i - 1)) pos = Ret (val pos).
Proof.
  intros V v0 p sols cs N M.
  destruct (steps V v0 p cs (fun _ => Empty) sols (alen sols) eq_refl) as (sols' & E & L & R); [| exact M |].
  { intros i Hi. destruct (N i Hi) as [N1 N2]. cbn. rewrite N1, N2. split; lia. }
  eexists _, _. split; [exact E|]. intros i k np val last Hi Ea Hk pos Hp. specialize (R i Hi). rewrite Ea in R.
  destruct R as (_ & _ & _ & _ & E5 & _ & _ & E8). destruct (E8 pos Hp) as [_ T].
  unfold used_value. rewrite E5, width_to. rewrite <- T. f_equal.
  destruct p, k; cbn [place_all ncomp]; try reflexivity. exfalso. apply Hk; reflexivity.
Qed.

Lemma take_two V (m : arr V) b : 0 <= b -> b + 2 <= alen m -> take V m b 2 = Ret [aget m b; aget m (b + 1)].
Proof. intros H1 H2. cbn [take]. rewrite !rd_ok by lia. reflexivity. Qed.

(** With Mmg2d the vector used at a vertex is made of the second value given for
    it and of the first one given for the next vertex. *)
Theorem vectors_shifted : forall V v0 (sols : arr (sol V)) cs,
  (forall i, 1 <= i <= alen sols -> new_sol V (aget sols (i - 1))) ->
  all_meant V v0 Mmg2d (alen sols) (fun _ => Empty) cs ->
  exists rs sols', do_calls V v0 Mmg2d cs sols = Ret (rs, sols') /\
    forall i np val last, 1 <= i <= alen sols -> after V v0 Mmg2d (fun _ => Empty) cs i = Filled Vector np val last ->
      forall pos, 1 <= pos < np -> used_value V (aget sols' (i - 1)) pos =
        Ret [nth 1 (val pos) v0; nth 0 (val (pos + 1)) v0].
Proof.
  intros V v0 sols cs N M.
  destruct (steps V v0 Mmg2d cs (fun _ => Empty) sols (alen sols) eq_refl) as (sols' & E & L & R); [| exact M |].
  { intros i Hi. destruct (N i Hi) as [N1 N2]. cbn. rewrite N1, N2. split; lia. }
  eexists _, _. split; [exact E|]. intros i np val last Hi Ea pos Hp. specialize (R i Hi). rewrite Ea in R.
  destruct R as (_ & _ & _ & E4 & E5 & _ & E7 & E8).
  destruct (E8 pos) as [_ T1]; [lia|]. destruct (E8 (pos + 1)) as [_ T2]; [lia|].
  unfold used_value. rewrite E5. cbn [ncomp width place_all] in *. change (Z.to_nat 2) with 2%nat.
  rewrite take_two in T1 by lia. rewrite take_two in T2 by lia. rewrite take_two by lia.
  assert (X1 : val pos = [aget (so_m V (aget sols' (i - 1))) (2 * (pos - 1) + 1); aget (so_m V (aget sols' (i - 1))) (2 * (pos - 1) + 1 + 1)])
    by congruence.
  assert (X2 : val (pos + 1) = [aget (so_m V (aget sols' (i - 1))) (2 * (pos + 1 - 1) + 1); aget (so_m V (aget sols' (i - 1))) (2 * (pos + 1 - 1) + 1 + 1)])
    by congruence.
  rewrite X1, X2. cbn [nth].
  replace (2 * (pos - 1) + 1 + 1) with (2 * pos) by lia.
  replace (2 * (pos + 1 - 1) + 1) with (2 * pos + 1) by lia. reflexivity.
Qed.

(** ** Cases *)

Definition blank : sol Z := mkSol 0 0 0 0 0 (mkArr 0 (fun _ => 0)).
Definition blanks (n : Z) : arr (sol Z) := mkArr n (fun _ => blank).

Lemma blanks_new n : forall i, 1 <= i <= alen (blanks n) -> new_sol Z (aget (blanks n) (i - 1)).
Proof. intros i _. split; reflexivity. Qed.

(** The displacements of two vertices for Mmg2d, given one by one. *)
Definition moves : list (Z * call Z) :=
  [(1, Size 10 1 2 2 true); (1, SetOne Vector [11; 12] 1); (1, SetOne Vector [21; 22] 2);
   (1, GetAll Vector)].

Example moves_meant p : p = Mmg2d -> all_meant Z 0 p 1 (fun _ => Empty) moves.
Proof.
  intros ->. cbn -[Z.le Z.lt]. repeat split; try lia; try discriminate; right; repeat split; try lia; discriminate.
Qed.

(** The getter gives them back, but the program uses others. *)
Theorem vectors_used_refuted : exists cs sols' val,
  all_meant Z 0 Mmg2d 1 (fun _ => Empty) cs /\
  do_calls Z 0 Mmg2d cs (blanks 1) = Ret (answers Z 0 Mmg2d (fun _ => Empty) cs, sols') /\
  after Z 0 Mmg2d (fun _ => Empty) cs 1 = Filled Vector 2 val 2 /\
  used_value Z (aget sols' 0) 1 <> Ret (val 1) /\ used_value Z (aget sols' 0) 1 = Ret [12; 21].
Proof.
  destruct (steps Z 0 Mmg2d moves (fun _ => Empty) (blanks 1) 1 eq_refl) as (sols' & E & _).
  { intros i Hi. cbn. lia. }
  { apply moves_meant. reflexivity. }
  assert (X : match do_calls Z 0 Mmg2d moves (blanks 1) with
              | Ret (_, s) => match used_value Z (aget s 0) 1 with
                              | Ret [a; b] => (a =? 12) && (b =? 21) | _ => false end
              | Stuck => false end = true) by (vm_compute; reflexivity).
  rewrite E in X.
  destruct (used_value Z (aget sols' 0) 1) as [[|a [|b [|]]]|] eqn:U; try discriminate X.
  apply andb_prop in X. destruct X as [X1 X2]. apply Z.eqb_eq in X1, X2. subst a b.
  exists moves, sols'. eexists. split; [apply moves_meant; reflexivity|]. split; [exact E|].
  split; [reflexivity|]. split; [rewrite U; cbn; discriminate | exact U].
Qed.

(** Three fields of different kinds, set and read in any order, a field being
    given another kind, positions out of range refused. *)
Definition mixed : list (Z * call Z) :=
  [(1, Size 10 1 2 1 true); (2, Size 10 1 2 3 true); (3, Size 10 2 2 3 true); (3, SetOne Scalar [1] 1);
   (1, SetOne Scalar [5] 2); (2, SetTyped [1; 2; 3; 4; 5; 6] 1); (1, SetOne Scalar [7] 3); (1, SetOne Scalar [7] 0);
   (1, GetOne Scalar); (1, GetOne Scalar); (1, GetOne Scalar); (2, GetTyped 1); (2, GetOne Tensor); (2, GetAll Tensor);
   (1, Size 10 1 1 2 true); (1, SetTypedAll (mkArr 3 (fun i => i))); (1, GetTypedAll)].

Example mixed_meant : all_meant Z 0 Mmg3d 3 (fun _ => Empty) mixed.
Proof.
  assert (X : forall A B C : Prop, B /\ C /\ True -> A \/ (B /\ C /\ true = true)) by tauto.
  cbn. repeat split; try lia; try (apply X; repeat split; try lia; discriminate); try (left; discriminate); intros [C _]; discriminate C.
Qed.

Example mixed_answers : answers Z 0 Mmg3d (fun _ => Empty) mixed =
  [(1, []); (1, []); (0, []); (0, []); (1, []); (1, []); (0, []); (0, []);
   (1, [0]); (1, [5]); (1, [0]); (1, [1; 2; 3; 4; 5; 6]); (1, [0; 0; 0; 0; 0; 0]);
   (1, [1; 2; 3; 4; 5; 6; 0; 0; 0; 0; 0; 0]); (1, []); (1, []); (1, [0; 1; 2])].
Proof. vm_compute. reflexivity. Qed.

(** ** C62: what breaks the histories *)

(** A number of vertices equal to the capacity: the last vertex is refused. *)
Theorem last_vertex_refuted : forall p k, exists mmax np typ vs,
  1 <= np <= mmax /\ kind_of typ = Some k /\ Z.of_nat (length vs) = ncomp p k /\
  exists s, do_calls Z 0 p [(1, Size mmax 1 np typ true); (1, SetOne k vs np)] (blanks 1) = Ret ([(1, []); (0, [])], s).
Proof.
  intros p k. exists 3, 3, (match k with Scalar => 1 | Vector => 2 | Tensor => 3 end), (repeat 9 (Z.to_nat (ncomp p k))).
  split; [lia|]. split; [destruct k; reflexivity|]. split; [rewrite repeat_length; apply size_1|].
  destruct p, k; eexists; reflexivity.
Qed.

(** A number of vertices above the capacity (for instance when the size of the
    mesh is not set yet) is accepted, and setting the values writes past the array. *)
Theorem size_before_mesh_refuted : forall p k, exists typ np u,
  kind_of typ = Some k /\ 1 <= np /\ ncomp p k * np <= alen u /\
  (exists s, do_calls Z 0 p [(1, Size 0 1 np typ true)] (blanks 1) = Ret ([(1, [])], s)) /\
  do_calls Z 0 p [(1, Size 0 1 np typ true); (1, SetAll k u)] (blanks 1) = Stuck.
Proof.
  intros p k. exists (match k with Scalar => 1 | Vector => 2 | Tensor => 3 end), 1, (mkArr 6 (fun i => i)).
  split; [destruct k; reflexivity|]. split; [lia|]. split; [destruct p, k; cbn; lia|].
  split; [destruct p, k; eexists; reflexivity | destruct p, k; reflexivity].
Qed.

(** A call with 0 vertices changes the kind but not the array. *)
Theorem size_zero_refuted : forall p, exists cs,
  (exists s, do_calls Z 0 p cs (blanks 1) = Ret ([(1, []); (1, [])], s)) /\
  do_calls Z 0 p (cs ++ [(1, SetOne Tensor (repeat 9 (Z.to_nat (ncomp p Tensor))) 2)]) (blanks 1) = Stuck.
Proof.
  intros p. exists [(1, Size 3 1 2 1 true); (1, Size 3 1 0 3 true)].
  destruct p; (split; [eexists; reflexivity | reflexivity]).
Qed.

(** A refused kind is recorded all the same, and the values of a field that was
    right cannot be read any more. *)
Theorem refused_kind_refuted : forall p, exists s,
  do_calls Z 0 p [(1, Size 3 1 2 1 true); (1, Size 3 1 2 7 true); (1, GetTyped 1)] (blanks 1)
    = Ret ([(1, []); (0, []); (0, [])], s).
Proof. intros p. destruct p; eexists; reflexivity. Qed.

(** When the memory is refused the array has gone but not its size: the next call writes through NULL. *)
Theorem refused_memory_refuted : forall p,
  (exists s, do_calls Z 0 p [(1, Size 3 1 2 1 false)] (blanks 1) = Ret ([(0, [])], s)) /\
  do_calls Z 0 p [(1, Size 3 1 2 1 false); (1, SetOne Scalar [9] 1)] (blanks 1) = Stuck.
Proof. intros p. destruct p; (split; [eexists; reflexivity | reflexivity]). Qed.

(** ** C63 *)

(** Positions out of range: refused, without effect, by the setters that test them. *)
Theorem positions_refused : forall V p k (s : sol V) vs pos,
  (p = Mmg2d -> k = Vector) -> pos < 1 \/ so_np V s < pos ->
  set_one V p k s vs pos = Ret (0, s).
Proof.
  intros V p k s vs pos Hk Hp. unfold set_one. destruct (so_np V s =? 0); [reflexivity|].
  assert (T : tests_low p k = true) by (destruct p, k; try reflexivity; discriminate (Hk eq_refl)).
  rewrite T. cbn [andb]. destruct (Z.ltb_spec pos 1); [reflexivity|].
  destruct (pos >=? so_npmax V s); [reflexivity|]. replace (pos >? so_np V s) with true by lia. reflexivity.
Qed.

(** The scalars and tensors of Mmg2d: position 0 is accepted, a negative one writes
    before the array. *)
Theorem positions_2d_refuted : forall k, k <> Vector ->
  exists typ vs, kind_of typ = Some k /\ Z.of_nat (length vs) = ncomp Mmg2d k /\
  (exists s, do_calls Z 0 Mmg2d [(1, Size 9 1 4 typ true); (1, SetOne k vs 0)] (blanks 1) = Ret ([(1, []); (1, [])], s)) /\
  do_calls Z 0 Mmg2d [(1, Size 9 1 4 typ true); (1, SetOne k vs (-1))] (blanks 1) = Stuck.
Proof.
  intros k Hk. exists (match k with Scalar => 1 | Vector => 2 | Tensor => 3 end), (repeat 9 (Z.to_nat (ncomp Mmg2d k))).
  split; [destruct k; reflexivity|]. split; [rewrite repeat_length; apply size_1|].
  destruct k; [| congruence |]; (split; [eexists; reflexivity | reflexivity]).
Qed.

(** For a vector or a tensor of an array of solutions the refusal is not reported. *)
Theorem refusal_lost_refuted : forall p k, k <> Scalar -> exists typ vs,
  kind_of typ = Some k /\ Z.of_nat (length vs) = ncomp p k /\
  exists s, do_calls Z 0 p [(1, Size 9 1 4 typ true); (1, SetTyped vs 5); (1, GetAll k)] (blanks 1)
    = Ret ([(1, []); (1, []); (1, repeat 0 (Z.to_nat (4 * ncomp p k)))], s).
Proof.
  intros p k Hk. exists (match k with Scalar => 1 | Vector => 2 | Tensor => 3 end), (repeat 9 (Z.to_nat (ncomp p k))).
  split; [destruct k; reflexivity|]. split; [rewrite repeat_length; apply size_1|].
  destruct p, k; try congruence; eexists; reflexivity.
Qed.

(** Reading the vertex after the last one of an array of solutions gives the first one. *)
Theorem read_beyond_refuted : forall p, exists s,
  do_calls Z 0 p [(1, Size 9 1 2 1 true); (1, SetOne Scalar [7] 1); (1, GetTyped 3)] (blanks 1)
    = Ret ([(1, []); (1, []); (1, [7])], s).
Proof. intros p. destruct p; eexists; reflexivity. Qed.

(** Reading the vertex 0 gives the unused place, a negative one reads before the array. *)
Theorem read_below_refuted : forall p,
  (exists s, do_calls Z 0 p [(1, Size 9 1 2 1 true); (1, GetTyped 0)] (blanks 1) = Ret ([(1, []); (1, [0])], s)) /\
  do_calls Z 0 p [(1, Size 9 1 2 1 true); (1, GetTyped (-1))] (blanks 1) = Stuck.
Proof. intros p. destruct p; (split; [eexists; reflexivity | reflexivity]). Qed.

(** A setter of another kind than the field is not refused: it writes past the array. *)
Theorem wrong_kind_refuted : forall p,
  do_calls Z 0 p [(1, Size 3 1 2 1 true); (1, SetOne Tensor (repeat 9 (Z.to_nat (ncomp p Tensor))) 2)] (blanks 1) = Stuck.
Proof. intros p. destruct p; reflexivity. Qed.

Print Assumptions solutions_read_back.
Print Assumptions solutions_used_partial.
Print Assumptions vectors_shifted.
Print Assumptions vectors_used_refuted.
Print Assumptions last_vertex_refuted.
Print Assumptions size_before_mesh_refuted.
Print Assumptions size_zero_refuted.
Print Assumptions refused_kind_refuted.
Print Assumptions refused_memory_refuted.
Print Assumptions positions_refused.
Print Assumptions positions_2d_refuted.
Print Assumptions refusal_lost_refuted.
Print Assumptions read_beyond_refuted.
Print Assumptions read_below_refuted.
Print Assumptions wrong_kind_refuted.
