(** Correctness of [assign_edges] and [pack_edges]. *)
From Coq Require Import ZArith List Lia Bool.
From Coq Require Import ZifyNat.
From Verif Require Import CBase HashModel HashSpec HashInv HashCorrect SurfModel TriHashProofs Tria2.
Import ListNotations.
Open Scope Z_scope.

(** ** Assignment *)

Lemma unreq_all_ok nt a : 0 <= nt < alen a ->
  exists a', unreq_all nt a = Ret a' /\ alen a' = alen a /\
    forall k, aget a' k = if (1 <=? k) && (k <=? nt) && t_eok (aget a k) then unreq (aget a k) else aget a k.
Proof.
  intros H. unfold unreq_all.
  match goal with |- context [for_range 1 nt ?f ?s] =>
    destruct (@for_range_inv (arr tri) (fun n b => alen b = alen a /\
      forall k, aget b k = if (1 <=? k) && (k <? n) && t_eok (aget a k) then unreq (aget a k) else aget a k) f 1 nt s)
      as (a' & E & L & G) end.
  - lia.
  - split; [reflexivity|]. intros k. destruct (Z.leb_spec 1 k), (Z.ltb_spec k 1); try reflexivity; lia.
  - intros n b Hn (L & G). rewrite rd_ok by lia. cbn [bind].
    assert (En : aget b n = aget a n) by (rewrite G; destruct (Z.ltb_spec n n); [lia|]; rewrite andb_false_r; reflexivity).
    rewrite En. destruct (t_eok (aget a n)) eqn:Ek.
    + rewrite wr_ok by lia. eexists. split; [reflexivity|]. cbn [alen aget]. split; [exact L|].
      intros k. unfold upd. destruct (Z.eqb_spec k n) as [->|Nk].
      * destruct (Z.leb_spec 1 n), (Z.ltb_spec n (n + 1)); try lia. cbn [andb]. rewrite Ek. reflexivity.
      * rewrite G. destruct (Z.leb_spec 1 k), (Z.ltb_spec k n), (Z.ltb_spec k (n + 1)); try lia; reflexivity.
    + exists b. split; [reflexivity|]. split; [exact L|]. intros k. rewrite G.
      destruct (Z.eq_dec k n) as [->|Nk]; [rewrite Ek, !andb_false_r; reflexivity|].
      destruct (Z.leb_spec 1 k), (Z.ltb_spec k n), (Z.ltb_spec k (n + 1)); try lia; reflexivity.
  - exists a'. split; [exact E|]. split; [exact L|]. intros k. rewrite G.
    destruct (Z.leb_spec k nt), (Z.ltb_spec k (nt + 1)); try lia; reflexivity.
Qed.

(** The table holds the first edge given for each pair. *)
Definition firsts (ed : arr edge) (n : Z) (M : emap) : Prop :=
  forall x y, match M x y with
  | Some m => 1 <= m < n /\ same_edge (e_a (aget ed m)) (e_b (aget ed m)) x y = true /\
              forall j, 1 <= j < m -> same_edge (e_a (aget ed j)) (e_b (aget ed j)) x y = false
  | None => forall j, 1 <= j < n -> same_edge (e_a (aget ed j)) (e_b (aget ed j)) x y = false
  end.

Lemma insert_known h M x y k g m : erep h M -> 0 < x -> 0 < y -> M x y = Some m ->
  exists h', hashEdge g h x y k = Ret (1, h') /\ erep h' M.
Proof.
  intros R Hx Hy N. destruct (estep_ok h M (EIns x y k g) R (conj Hx Hy)) as (v & h' & E & C).
  exists h'. cbn [espec] in C. rewrite N in C. cbn [fst snd] in C. cbn [estep] in E.
  destruct C as [[-> C] | [[F F'] _]]; [auto | congruence].
Qed.

Lemma hash_edges_ok na gr ed : 0 <= na < alen ed ->
  (forall k, 1 <= k <= na -> 0 < e_a (aget ed k) /\ 0 < e_b (aget ed k)) ->
  exists o, hash_edges na gr ed = Ret o /\
    match o with
    | None => exists k, 1 <= k <= na /\ gr k < 1
    | Some h => exists M, erep h M /\ firsts ed (na + 1) M
    end.
Proof.
  intros H HP. unfold hash_edges.
  destruct (new_rep na (3 * na) ltac:(lia)) as (h & E & R & _). rewrite E. cbn [bind].
  match goal with |- context [for_range 1 na ?f ?s] =>
    destruct (@for_range_inv (option htab) (fun n o => match o with
      | None => exists k, 1 <= k <= na /\ gr k < 1
      | Some h => exists M, erep h M /\ firsts ed n M end) f 1 na s) as (o & Eo & P) end.
  - lia.
  - exists emap0. split; [exact R|]. intros x y. cbn. intros j Hj. lia.
  - intros n [h1|] Hn P; [|exists None; split; [reflexivity | exact P]].
    destruct P as (M & R1 & F). rewrite rd_ok by lia. cbn [bind].
    destruct (HP n Hn) as [Pa Pb]. set (e := aget ed n) in *.
    destruct (M (e_a e) (e_b e)) as [m|] eqn:Em.
    + destruct (insert_known h1 M _ _ n (gr n) m R1 Pa Pb Em) as (h2 & E2 & R2). rewrite E2. cbn [bind].
      cbn [Z.eqb]. eexists. split; [reflexivity|]. exists M. split; [exact R2|].
      intros x y. pose proof (F x y) as Fx. destruct (M x y) as [m'|] eqn:Ex.
      * destruct Fx as (A & B & C). split; [lia|]. auto.
      * intros j Hj. destruct (Z.eq_dec j n) as [->|]; [|apply Fx; lia].
        destruct (same_edge (e_a (aget ed n)) (e_b (aget ed n)) x y) eqn:S; [|reflexivity].
        fold e in S. rewrite (erep_sym _ _ _ _ _ _ R1 S) in Em. congruence.
    + destruct (insert h1 M _ _ n (gr n) R1 Pa Pb Em) as (r & h2 & E2 & [[-> Hg]|[-> R2]]); rewrite E2; cbn [bind Z.eqb].
      * exists None. split; [reflexivity|]. exists n. auto.
      * eexists. split; [reflexivity|]. exists (eput M (e_a e) (e_b e) n). split; [exact R2|].
        intros x y. unfold eput. destruct (same_edge (e_a e) (e_b e) x y) eqn:S.
        -- split; [lia|]. split; [exact S|]. pose proof (F x y) as Fx. rewrite <- (erep_sym _ _ _ _ _ _ R1 S), Em in Fx. exact Fx.
        -- pose proof (F x y) as Fx. destruct (M x y) as [m'|].
           ++ destruct Fx as (A & B & C). split; [lia|]. auto.
           ++ intros j Hj. destruct (Z.eq_dec j n) as [->|]; [exact S | apply Fx; lia].
  - exists o. split; [exact Eo|]. destruct o; exact P.
Qed.

(** The edge found for the edge [j] of a triangle. *)
Definition look (M : emap) (t : tri) (j : Z) : option Z := M (t_v t (nx j)) (t_v t (pv j)).

(** What becomes of a triangle. *)
Definition given (M : emap) (ed : arr edge) (t : tri) : tri :=
  mkTri (t_v t)
    (fun j => if (0 <=? j) && (j <? 3) then
       match look M t j with Some m => Z.lor (t_tag t j) (e_tag (aget ed m)) | None => t_tag t j end else t_tag t j)
    (fun j => if (0 <=? j) && (j <? 3) then
       match look M t j with Some m => e_ref (aget ed m) | None => t_edg t j end else t_edg t j)
    (t_ref t).

Definition same_tri (t u : tri) : Prop :=
  (forall i, t_v t i = t_v u i) /\ (forall i, t_tag t i = t_tag u i) /\ (forall i, t_edg t i = t_edg u i) /\ t_ref t = t_ref u.

Lemma assign1_ok h M ed n0 t i : n0 < alen ed -> erep h M -> firsts ed (n0 + 1) M ->
  0 < t_v t i -> 0 < t_v t (nx i) ->
  assign1 h ed i t = Ret (match M (t_v t i) (t_v t (nx i)) with
    | Some m => set_tg (upd (t_tag t) (nx (nx i)) (Z.lor (t_tag t (nx (nx i))) (e_tag (aget ed m))))
                  (set_ed (upd (t_edg t) (nx (nx i)) (e_ref (aget ed m))) t)
    | None => t end).
Proof.
  intros Hn R F A B. unfold assign1. rewrite (lookup h M _ _ R A B). cbn [bind].
  pose proof (F (t_v t i) (t_v t (nx i))) as Fx. destruct (M (t_v t i) (t_v t (nx i))) as [m|].
  - destruct Fx as (C & _). destruct (Z.eqb_spec m 0); [lia|]. rewrite rd_ok by lia. reflexivity.
  - reflexivity.
Qed.

Lemma assign3_ok h M ed n0 t : n0 < alen ed -> erep h M -> firsts ed (n0 + 1) M -> (forall i, 0 <= i < 3 -> 0 < t_v t i) ->
  exists t', (t <- assign1 h ed 0 t ;; t <- assign1 h ed 1 t ;; assign1 h ed 2 t) = Ret t' /\ same_tri t' (given M ed t).
Proof.
  intros Hn R F P. pose proof (P 0 ltac:(lia)) as P0. pose proof (P 1 ltac:(lia)) as P1. pose proof (P 2 ltac:(lia)) as P2.
  rewrite (assign1_ok h M ed n0 t 0 Hn R F P0 P1). cbn [bind]. change (nx 0) with 1. change (nx 1) with 2.
  set (t1 := match M (t_v t 0) (t_v t 1) with Some m => _ | None => t end).
  assert (V1 : t_v t1 = t_v t) by (unfold t1; destruct (M (t_v t 0) (t_v t 1)); reflexivity).
  rewrite (assign1_ok h M ed n0 t1 1 Hn R F); [|rewrite V1; exact P1 | rewrite V1; exact P2]. cbn [bind].
  change (nx 1) with 2. change (nx 2) with 0.
  set (t2 := match M (t_v t1 1) (t_v t1 2) with Some m => _ | None => t1 end).
  assert (V2 : t_v t2 = t_v t) by (unfold t2; destruct (M (t_v t1 1) (t_v t1 2)); exact V1).
  rewrite (assign1_ok h M ed n0 t2 2 Hn R F); [|rewrite V2; exact P2 | rewrite V2; exact P0].
  change (nx 2) with 0. change (nx 0) with 1.
  eexists. split; [reflexivity|]. unfold t2, t1. clear t2 t1 V1 V2.
  unfold given, look, same_tri.
  set (m0 := M (t_v t 1) (t_v t 2)) in *. 
  assert (S : forall j, 0 <= j < 3 \/ (j < 0 \/ 3 <= j)) by (intros; lia).
  destruct (M (t_v t 0) (t_v t 1)) as [a|] eqn:Ea; cbn [t_v set_tg set_ed];
  destruct m0 as [b|] eqn:Eb; unfold m0 in Eb; cbn [t_v set_tg set_ed]; rewrite ?Eb; cbn [t_v set_tg set_ed];
  destruct (M (t_v t 2) (t_v t 0)) as [c|] eqn:Ec; cbn [t_v t_tag t_edg t_ref set_tg set_ed];
  (split; [reflexivity | split; [|split; [|reflexivity]]]);
  intros j; destruct (S j) as [Hj|Hj];
  try (destruct (Z.leb_spec 0 j), (Z.ltb_spec j 3); try lia; cbn [andb]; unfold upd;
       repeat match goal with |- context [?x =? ?y] => destruct (Z.eqb_spec x y); try lia end; reflexivity);
  (assert (C : j = 0 \/ j = 1 \/ j = 2) by lia; destruct C as [->|[->| ->]]; cbn [Z.leb Z.ltb Z.compare Pos.compare Pos.compare_cont andb nx pv Z.eqb Pos.eqb];
   rewrite ?Ea, ?Eb, ?Ec; reflexivity).
Qed.

Lemma assign_all_ok nt h M ed n0 a : n0 < alen ed -> erep h M -> firsts ed (n0 + 1) M -> 0 <= nt < alen a ->
  (forall k, 1 <= k <= nt -> 0 < t_v (aget a k) 0 -> forall i, 0 <= i < 3 -> 0 < t_v (aget a k) i) ->
  exists a', assign_all nt h ed a = Ret a' /\ alen a' = alen a /\
    forall k, same_tri (aget a' k) (if (1 <=? k) && (k <=? nt) && t_eok (aget a k) then given M ed (aget a k) else aget a k).
Proof.
  intros Hn0 R F H P. unfold assign_all.
  match goal with |- context [for_range 1 nt ?f ?s] =>
    destruct (@for_range_inv (arr tri) (fun n b => alen b = alen a /\
      (forall k, n <= k -> aget b k = aget a k) /\
      forall k, same_tri (aget b k) (if (1 <=? k) && (k <? n) && t_eok (aget a k) then given M ed (aget a k) else aget a k)) f 1 nt s)
      as (a' & E & L & _ & G) end.
  - lia.
  - split; [reflexivity|]. split; [auto|]. intros k. destruct (Z.leb_spec 1 k), (Z.ltb_spec k 1); try lia; cbn [andb]; repeat split; reflexivity.
  - intros n b Hn (L & K & G). rewrite rd_ok by lia. cbn [bind]. rewrite (K n) by lia.
    destruct (t_eok (aget a n)) eqn:Ek.
    + destruct (assign3_ok h M ed n0 (aget a n) Hn0 R F) as (t' & E3 & S3).
      { apply P; [lia|]. unfold t_eok in Ek. lia. }
      destruct (assign1 h ed 0 (aget a n)) as [u1|]; cbn [bind] in E3 |- *; [|discriminate].
      destruct (assign1 h ed 1 u1) as [u2|]; cbn [bind] in E3 |- *; [|discriminate].
      rewrite E3. cbn [bind]. rewrite wr_ok by lia. eexists. split; [reflexivity|]. cbn [alen aget].
      split; [exact L|]. split; [intros k Hk; rewrite upd_other by lia; apply K; lia|].
      intros k. unfold upd. destruct (Z.eqb_spec k n) as [->|Nk].
      * destruct (Z.leb_spec 1 n), (Z.ltb_spec n (n + 1)); try lia. cbn [andb]. rewrite Ek. exact S3.
      * specialize (G k). destruct (Z.leb_spec 1 k), (Z.ltb_spec k n), (Z.ltb_spec k (n + 1)); try lia; exact G.
    + exists b. split; [reflexivity|]. split; [exact L|]. split; [intros k Hk; apply K; lia|].
      intros k. specialize (G k). destruct (Z.eq_dec k n) as [->|Nk]; [rewrite Ek, !andb_false_r in *; exact G|].
      destruct (Z.leb_spec 1 k), (Z.ltb_spec k n), (Z.ltb_spec k (n + 1)); try lia; exact G.
  - exists a'. split; [exact E|]. split; [exact L|]. intros k. specialize (G k).
    destruct (Z.leb_spec k nt), (Z.ltb_spec k (nt + 1)); try lia; exact G.
Qed.

(** ** The edges made *)
Section Made.
Variable opn : bool.
Variables nt ntmax : Z.
Variable adj : arr Z.
Variable a0 : arr tri.
Hypothesis Hnt : 0 <= nt <= ntmax.
Hypothesis Hlen : alen a0 = ntmax + 1.
Hypothesis Hadj : alen adj = 3 * ntmax + 5.
Hypothesis Hent : forall s, 1 <= s <= 3 * nt -> 0 <= aget adj s <= 3 * nt + 2.

(** Slot [c = 3*k+i] is the edge [i] of the triangle [k]. *)
Let T (c : Z) : tri := aget a0 (c / 3).
Definition ngb (c : Z) : Z := aget adj (c - 2) / 3.
Definition sel (c : Z) : bool :=
  t_eok (T c) && stored opn (ngb c) (t_ref (T c)) (t_ref (aget a0 (ngb c))) (thaw (t_tag (T c) (c mod 3))).

(** Number of slots kept before [c]. *)
Definition cnt (c : Z) : Z := Z.of_nat (length (filter (fun n => sel (3 + Z.of_nat n)) (seq 0 (Z.to_nat (c - 3))))).

Lemma cnt_next c : 3 <= c -> cnt (c + 1) = cnt c + (if sel c then 1 else 0).
Proof.
  intros H. unfold cnt. replace (Z.to_nat (c + 1 - 3)) with (S (Z.to_nat (c - 3))) by lia.
  rewrite seq_S, filter_app, app_length. cbn [filter Nat.add].
  replace (3 + Z.of_nat (Z.to_nat (c - 3))) with c by lia. destruct (sel c); cbn [length]; lia.
Qed.

Lemma cnt_start : cnt 3 = 0.
Proof. reflexivity. Qed.

Lemma cnt_mono c d : 3 <= c <= d -> cnt c <= cnt d.
Proof.
  intros [H1 H2]. pattern d. apply (Zlt_lower_bound_ind _ c); [|exact H2].
  intros x IH Hx. destruct (Z.eq_dec x c) as [->|]; [lia|].
  pose proof (IH (x - 1) ltac:(lia)). pose proof (cnt_next (x - 1) ltac:(lia)) as E.
  replace (x - 1 + 1) with x in E by lia. destruct (sel (x - 1)); lia.
Qed.

Lemma cnt_nonneg c : 0 <= cnt c.
Proof. clear. unfold cnt. apply Nat2Z.is_nonneg. Qed.

(** The triangle [k] once its edges are released. *)
Definition thawed (t : tri) : tri :=
  mkTri (t_v t) (fun j => if (0 <=? j) && (j <? 3) then thaw (t_tag t j) else t_tag t j) (t_edg t) (t_ref t).

(** Its edges before number [i] only. *)
Definition thawed_to (i : Z) (t : tri) : tri :=
  mkTri (t_v t) (fun j => if (0 <=? j) && (j <? i) then thaw (t_tag t j) else t_tag t j) (t_edg t) (t_ref t).

(** While the edge [i] of the triangle [n] is being looked at. *)
Definition Cst (n i : Z) (st : arr tri * Z) : Prop :=
  alen (fst st) = alen a0 /\ snd st = cnt (3 * n + i) /\
  (forall k, k <> n -> same_tri (aget (fst st) k)
    (if (1 <=? k) && (k <? n) && t_eok (aget a0 k) then thawed (aget a0 k) else aget a0 k)) /\
  same_tri (aget (fst st) n) (thawed_to i (aget a0 n)).

Lemma counted_ok iel ref ref1 tag : counted opn iel ref ref1 tag = Ret (stored opn iel ref ref1 tag).
Proof.
  unfold counted, stored. destruct ((iel =? 0) || (ref1 <? ref)); [reflexivity|]. cbn [orb].
  destruct ((ref =? ref1) && t_sin tag); [reflexivity|]. cbn [orb].
  destruct opn; [|reflexivity]. cbn [andb].
  destruct (tst tag G_REF) eqn:E1; cbn [orb].
  - assert (tst tag (G_REF + G_BDY) = true) as ->; [|reflexivity].
    unfold tst in *. destruct (Z.eqb_spec (Z.land tag (G_REF + G_BDY)) 0) as [E|]; [|reflexivity].
    exfalso. assert (Z.land tag G_REF = 0); [|rewrite H in E1; discriminate].
    change G_REF with (Z.land (G_REF + G_BDY) G_REF). rewrite Z.land_assoc, E. reflexivity.
  - destruct (tst tag G_BDY) eqn:E2; [|reflexivity].
    assert (tst tag (G_REF + G_BDY) = true) as ->; [|reflexivity].
    unfold tst in *. destruct (Z.eqb_spec (Z.land tag (G_REF + G_BDY)) 0) as [E|]; [|reflexivity].
    exfalso. assert (Z.land tag G_BDY = 0); [|rewrite H in E2; discriminate].
    change G_BDY with (Z.land (G_REF + G_BDY) G_BDY). rewrite Z.land_assoc, E. reflexivity.
Qed.

Lemma slot_at k i : 0 <= i < 3 -> (3 * k + i) / 3 = k /\ (3 * k + i) mod 3 = i.
Proof.
  intros H. clear - H. split.
  - replace (3 * k + i) with (i + k * 3) by lia. rewrite Z.div_add by lia. rewrite Z.div_small by lia. lia.
  - replace (3 * k + i) with (i + k * 3) by lia. rewrite Z.mod_add by lia. apply Z.mod_small. lia.
Qed.

Lemma ngb_range c : 3 <= c < 3 * nt + 3 -> 0 <= ngb c <= nt.
Proof.
  intros H. unfold ngb. pose proof (Hent (c - 2) ltac:(lia)) as E. split.
  - apply Z.div_pos; lia.
  - assert (aget adj (c - 2) / 3 < nt + 1); [apply Z.div_lt_upper_bound; lia | lia].
Qed.

Lemma same_ref t u : same_tri t u -> t_ref t = t_ref u.
Proof. intros (_ & _ & _ & H). exact H. Qed.

Lemma eok_same t u : same_tri t u -> t_eok t = t_eok u.
Proof. intros (H & _). unfold t_eok. rewrite H. reflexivity. Qed.

Lemma count_step k i st : 1 <= k <= nt -> 0 <= i < 3 -> t_eok (aget a0 k) = true -> Cst k i st ->
  exists st', (let '(a, na) := st in
        t <- rd a k ;;
        x <- rd adj (3 * (k - 1) + 1 + i) ;;
        let iel := Z.quot x 3 in
        let t := set_tg (upd (t_tag t) i (thaw (t_tag t i))) t in
        a <- wr a k t ;;
        t1 <- rd a iel ;;
        b <- counted opn iel (t_ref t) (t_ref t1) (t_tag t i) ;;
        Ret (a, if b : bool then na + 1 else na)) = Ret st' /\ Cst k (i + 1) st'.
Proof.
  intros Hk Hi Ek (L & C & G & Gk). destruct st as [a na]. cbn [fst snd] in *.
  destruct (slot_at k i Hi) as [D M].
  rewrite rd_ok by lia. cbn [bind]. rewrite rd_ok by lia. cbn [bind].
  assert (Hs : 3 * (k - 1) + 1 + i = 3 * k + i - 2) by lia. rewrite Hs.
  pose proof (ngb_range (3 * k + i) ltac:(lia)) as Hn.
  assert (Q : Z.quot (aget adj (3 * k + i - 2)) 3 = ngb (3 * k + i)).
  { unfold ngb. apply Z.quot_div_nonneg; [|lia]. apply Hent. lia. }
  rewrite Q. rewrite wr_ok by lia. cbn [bind]. rewrite rd_ok by (cbn [alen]; lia). cbn [bind aget].
  rewrite counted_ok. cbn [bind].
  eexists. split; [reflexivity|]. cbn [fst snd alen aget t_tag t_ref set_tg].
  split; [exact L|]. split; [|split].
  - replace (3 * k + (i + 1)) with (3 * k + i + 1) by lia.
    rewrite cnt_next by lia. unfold sel, T. rewrite D, M, Ek. cbn [andb].
    rewrite upd_same. destruct Gk as (Gv & Gt & Ge & Gr). rewrite Gr, Gt. cbn [t_ref t_tag thawed_to].
    destruct (Z.ltb_spec i i); [lia|]. rewrite andb_false_r.
    assert (Rn : t_ref (upd (aget a) k (set_tg (upd (t_tag (aget a k)) i (thaw (t_tag (aget a0 k) i))) (aget a k)) (ngb (3 * k + i)))
                 = t_ref (aget a0 (ngb (3 * k + i)))).
    { unfold upd at 1. destruct (Z.eqb_spec (ngb (3 * k + i)) k) as [->|Nn].
      - cbn [t_ref set_tg]. rewrite Gr. reflexivity.
      - rewrite (same_ref _ _ (G _ Nn)).
        destruct ((1 <=? ngb (3 * k + i)) && (ngb (3 * k + i) <? k) && t_eok (aget a0 (ngb (3 * k + i)))); reflexivity. }
    rewrite Rn. rewrite C. cbn [snd]. destruct (stored opn (ngb (3 * k + i)) (t_ref (aget a0 k)) (t_ref (aget a0 (ngb (3 * k + i)))) (thaw (t_tag (aget a0 k) i))); lia.
  - intros j Nj. cbn [fst aget]. rewrite upd_other by exact Nj. apply G. exact Nj.
  - cbn [fst aget]. rewrite upd_same. destruct Gk as (Gv & Gt & Ge & Gr). split; [exact Gv|]. split; [|split; [exact Ge | exact Gr]].
    intros j. cbn [t_tag set_tg thawed_to]. unfold upd. rewrite !Gt. cbn [t_tag thawed_to].
    destruct (Z.eqb_spec j i) as [->|Nj].
    + destruct (Z.ltb_spec i i), (Z.leb_spec 0 i), (Z.ltb_spec i (i + 1)); try lia; reflexivity.
    + destruct (Z.leb_spec 0 j), (Z.ltb_spec j i), (Z.ltb_spec j (i + 1)); try lia; reflexivity.
Qed.

Lemma cnt_hole k : 1 <= k -> t_eok (aget a0 k) = false -> cnt (3 * k + 3) = cnt (3 * k).
Proof.
  intros Hk Ek.
  assert (S : forall i, 0 <= i < 3 -> sel (3 * k + i) = false).
  { intros i Hi. unfold sel, T. destruct (slot_at k i Hi) as [-> _]. rewrite Ek. reflexivity. }
  pose proof (cnt_next (3 * k + 0) ltac:(lia)) as E0. rewrite S in E0 by lia.
  pose proof (cnt_next (3 * k + 1) ltac:(lia)) as E1. rewrite S in E1 by lia.
  pose proof (cnt_next (3 * k + 2) ltac:(lia)) as E2. rewrite S in E2 by lia.
  replace (3 * k + 0 + 1) with (3 * k + 1) in E0 by lia. replace (3 * k + 1 + 1) with (3 * k + 2) in E1 by lia.
  replace (3 * k + 2 + 1) with (3 * k + 3) in E2 by lia. replace (3 * k + 0) with (3 * k) in E0 by lia. lia.
Qed.

(** After the triangles before [n]. *)
Definition Dst (n : Z) (st : arr tri * Z) : Prop :=
  alen (fst st) = alen a0 /\ snd st = cnt (3 * n) /\
  forall k, same_tri (aget (fst st) k)
    (if (1 <=? k) && (k <? n) && t_eok (aget a0 k) then thawed (aget a0 k) else aget a0 k).

Lemma thawed_0 t : same_tri (thawed_to 0 t) t.
Proof.
  repeat split. intros j. cbn. destruct (Z.leb_spec 0 j), (Z.ltb_spec j 0); try lia; reflexivity.
Qed.

Lemma same_trans t u w : same_tri t u -> same_tri u w -> same_tri t w.
Proof.
  intros (A1 & A2 & A3 & A4) (B1 & B2 & B3 & B4). split; [|split; [|split]]; intros; congruence.
Qed.
Lemma same_sym t u : same_tri t u -> same_tri u t.
Proof. intros (A1 & A2 & A3 & A4). split; [|split; [|split]]; intros; congruence. Qed.
Lemma same_refl t : same_tri t t.
Proof. repeat split. Qed.

Lemma count_ok : exists a' na, count_edges opn nt adj a0 = Ret (a', na) /\ Dst (nt + 1) (a', na).
Proof.
  unfold count_edges.
  match goal with |- context [for_range 1 nt ?f ?s] =>
    destruct (@for_range_inv (arr tri * Z) (fun n st => Dst n st) f 1 nt s) as ((a' & na) & E & P) end.
  - lia.
  - split; [reflexivity|]. split; [reflexivity|]. intros k. cbn [fst].
    destruct (Z.leb_spec 1 k), (Z.ltb_spec k 1); try lia; apply same_refl.
  - intros k st Hk (L & C & G). rewrite rd_ok by lia. cbn [bind].
    pose proof (G k) as Gk. destruct (Z.ltb_spec k k); [lia|]. rewrite andb_false_r in Gk. cbn [andb] in Gk.
    rewrite (eok_same _ _ Gk). destruct (t_eok (aget a0 k)) eqn:Ek.
    + match goal with |- context [for_range 0 2 ?f ?s] =>
        destruct (@for_range_inv (arr tri * Z) (fun i st' => Cst k i st') f 0 2 s) as (st' & E' & P') end.
      * lia.
      * split; [exact L|]. split; [rewrite Z.add_0_r; exact C|].
        split; [intros j _; apply G|]. eapply same_trans; [exact Gk | apply same_sym, thawed_0].
      * intros i st1 Hi Q. exact (count_step k i st1 Hk ltac:(lia) Ek Q).
      * exists st'. split; [exact E'|]. destruct P' as (L' & C' & G' & K'). split; [exact L'|].
        split; [rewrite C'; f_equal; lia|]. intros j. destruct (Z.eq_dec j k) as [->|Nj].
        -- destruct (Z.leb_spec 1 k), (Z.ltb_spec k (k + 1)); try lia. rewrite Ek. cbn [andb]. exact K'.
        -- specialize (G' j Nj). destruct (Z.leb_spec 1 j), (Z.ltb_spec j k), (Z.ltb_spec j (k + 1)); try lia; exact G'.
    + exists st. split; [reflexivity|]. split; [exact L|].
      split; [rewrite C; replace (3 * (k + 1)) with (3 * k + 3) by lia; symmetry; apply cnt_hole; [lia | exact Ek]|].
      intros j. specialize (G j). destruct (Z.eq_dec j k) as [->|Nj]; [rewrite Ek, !andb_false_r in *; exact G|].
      destruct (Z.leb_spec 1 j), (Z.ltb_spec j k), (Z.ltb_spec j (k + 1)); try lia; exact G.
  - exists a', na. split; [exact E | exact P].
Qed.

(** The edge made from a slot. *)
Definition made (c : Z) : edge :=
  mkE (t_v (T c) (nx (c mod 3))) (t_v (T c) (pv (c mod 3))) (t_edg (T c) (c mod 3)) (thaw (t_tag (T c) (c mod 3))).

Definition Sst (c : Z) (n : Z) (st : arr edge * Z) : Prop :=
  alen (fst st) = n + 1 /\ snd st = cnt c /\
  forall s, 3 <= s < c -> sel s = true -> aget (fst st) (cnt s + 1) = made s.

Lemma store_ok a1 : Dst (nt + 1) (a1, cnt (3 * nt + 3)) ->
  exists ed ned, store_edges opn nt adj a1 (acalloc (cnt (3 * nt + 3) + 1) edge0) = Ret (ed, ned) /\
    Sst (3 * nt + 3) (cnt (3 * nt + 3)) (ed, ned).
Proof.
  intros (L & _ & G). cbn [fst] in L, G. unfold store_edges.
  set (n := cnt (3 * nt + 3)).
  match goal with |- context [for_range 1 nt ?f ?s] =>
    destruct (@for_range_inv (arr edge * Z) (fun k st => Sst (3 * k) n st) f 1 nt s) as ((ed & ned) & E & P) end.
  - lia.
  - split; [reflexivity|]. split; [reflexivity|]. intros s Hs. lia.
  - intros k st Hk P. rewrite rd_ok by lia. cbn [bind].
    pose proof (G k) as Gk. destruct (Z.leb_spec 1 k), (Z.ltb_spec k (nt + 1)); try lia. cbn [andb] in Gk.
    assert (Eq : t_eok (aget a1 k) = t_eok (aget a0 k)).
    { rewrite (eok_same _ _ Gk). destruct (t_eok (aget a0 k)) eqn:X; exact X. }
    rewrite Eq. destruct (t_eok (aget a0 k)) eqn:Ek.
    + match goal with |- context [for_range 0 2 ?f ?s] =>
        destruct (@for_range_inv (arr edge * Z) (fun i st' => Sst (3 * k + i) n st') f 0 2 s) as (st' & E' & P') end.
      * lia.
      * rewrite Z.add_0_r. exact P.
      * intros i [ed ned] Hi (L1 & C1 & S1). cbn [fst snd] in L1, C1, S1.
        destruct (slot_at k i ltac:(lia)) as [D M].
        rewrite rd_ok by lia. cbn [bind]. replace (3 * (k - 1) + 1 + i) with (3 * k + i - 2) by lia.
        pose proof (ngb_range (3 * k + i) ltac:(lia)) as Hn.
        assert (Q : Z.quot (aget adj (3 * k + i - 2)) 3 = ngb (3 * k + i)).
        { unfold ngb. apply Z.quot_div_nonneg; [|lia]. apply Hent. lia. }
        rewrite Q. rewrite rd_ok by lia. cbn [bind].
        destruct Gk as (Gv & Gt & Ge & Gr). rewrite Gr, Gt. cbn [t_ref t_tag thawed].
        destruct (Z.leb_spec 0 i), (Z.ltb_spec i 3); try lia. cbn [andb].
        assert (Rn : t_ref (aget a1 (ngb (3 * k + i))) = t_ref (aget a0 (ngb (3 * k + i)))).
        { rewrite (same_ref _ _ (G _)).
          destruct ((1 <=? ngb (3 * k + i)) && (ngb (3 * k + i) <? nt + 1) && t_eok (aget a0 (ngb (3 * k + i)))); reflexivity. }
        rewrite Rn.
        assert (Es : stored opn (ngb (3 * k + i)) (t_ref (aget a0 k)) (t_ref (aget a0 (ngb (3 * k + i)))) (thaw (t_tag (aget a0 k) i)) = sel (3 * k + i)).
        { unfold sel, T. rewrite D, M, Ek. reflexivity. }
        rewrite Es. pose proof (cnt_next (3 * k + i) ltac:(lia)) as CN.
        replace (3 * k + (i + 1)) with (3 * k + i + 1) by lia.
        pose proof (cnt_nonneg (3 * k + i)).
        destruct (sel (3 * k + i)) eqn:Sl.
        -- pose proof (cnt_mono (3 * k + i + 1) (3 * nt + 3) ltac:(lia)) as Mo. fold n in Mo.
           rewrite wr_ok by lia. cbn [bind]. eexists. split; [reflexivity|]. cbn [fst snd alen aget].
           split; [exact L1|]. split; [cbn [snd]; lia|]. intros s Hs Ss. cbn [fst aget]. destruct (Z.eq_dec s (3 * k + i)) as [->|Ns].
           ++ rewrite <- C1, upd_same. unfold made, T. rewrite D, M. rewrite !Gv, Ge. reflexivity.
           ++ rewrite upd_other; [apply S1; [lia | exact Ss]|].
              pose proof (cnt_next s ltac:(lia)) as CN2. rewrite Ss in CN2.
              pose proof (cnt_mono (s + 1) (3 * k + i) ltac:(lia)). lia.
        -- eexists. split; [reflexivity|]. split; [exact L1|]. split; [cbn [snd]; lia|].
           intros s Hs Ss. cbn [fst]. apply S1; [|exact Ss]. assert (s <> 3 * k + i) by (intros ->; congruence). lia.
      * exists st'. split; [exact E'|]. replace (3 * (k + 1)) with (3 * k + (2 + 1)) by lia. exact P'.
    + exists st. split; [reflexivity|]. destruct P as (L1 & C1 & S1). split; [exact L1|].
      replace (3 * (k + 1)) with (3 * k + 3) by lia. split; [rewrite C1; symmetry; apply cnt_hole; [lia | exact Ek]|].
      intros s Hs Ss. apply S1; [|exact Ss].
      destruct (Z_lt_le_dec s (3 * k)); [lia|]. exfalso.
      unfold sel, T in Ss. assert (s / 3 = k) by (destruct (slot_at k (s - 3 * k) ltac:(lia)) as [X _]; replace (3 * k + (s - 3 * k)) with s in X by lia; exact X).
      rewrite H1, Ek in Ss. discriminate.
  - exists ed, ned. split; [exact E|]. replace (3 * nt + 3) with (3 * (nt + 1)) by lia. exact P.
Qed.

(** Both passes. *)
Lemma pack_ok : exists a1 na ed, pack_edges opn nt adj a0 = Ret (a1, na, ed) /\
  na = cnt (3 * nt + 3) /\ alen a1 = alen a0 /\
  (forall k, same_tri (aget a1 k) (if (1 <=? k) && (k <=? nt) && t_eok (aget a0 k) then thawed (aget a0 k) else aget a0 k)) /\
  (forall s, 3 <= s < 3 * nt + 3 -> sel s = true -> 0 <= cnt s + 1 <= na /\ aget ed (cnt s + 1) = made s) /\
  (0 < na -> alen ed = na + 1).
Proof.
  unfold pack_edges. destruct count_ok as (a1 & na & E & P). rewrite E. cbn [bind].
  pose proof P as (L & C & G). cbn [fst snd] in L, C, G. replace (3 * (nt + 1)) with (3 * nt + 3) in C by lia. subst na.
  assert (G' : forall k, same_tri (aget a1 k) (if (1 <=? k) && (k <=? nt) && t_eok (aget a0 k) then thawed (aget a0 k) else aget a0 k)).
  { intros k. specialize (G k). destruct (Z.leb_spec k nt), (Z.ltb_spec k (nt + 1)); try lia; exact G. }
  assert (B : forall s, 3 <= s < 3 * nt + 3 -> sel s = true -> 0 <= cnt s + 1 <= cnt (3 * nt + 3)).
  { intros s Hs Ss. pose proof (cnt_next s ltac:(lia)) as CN. rewrite Ss in CN.
    pose proof (cnt_mono (s + 1) (3 * nt + 3) ltac:(lia)). pose proof (cnt_nonneg s). lia. }
  destruct (Z.eqb_spec (cnt (3 * nt + 3)) 0) as [Z0|Nz].
  - exists a1, 0, (acalloc 0 edge0). split; [reflexivity|]. split; [auto|]. split; [exact L|]. split; [exact G'|].
    split; [|lia]. intros s Hs Ss. pose proof (B s Hs Ss). pose proof (cnt_nonneg s). lia.
  - destruct (store_ok a1 P) as (ed & ned & Es & (L1 & C1 & S1)). rewrite Es. cbn [bind].
    exists a1, (cnt (3 * nt + 3)), ed. split; [reflexivity|]. split; [reflexivity|]. split; [exact L|]. split; [exact G'|].
    split; [|intros _; exact L1]. intros s Hs Ss. split; [exact (B s Hs Ss) | exact (S1 s Hs Ss)].
Qed.

(** Every edge made comes from one slot. *)
Lemma cnt_onto j : 1 <= j <= cnt (3 * nt + 3) -> exists s, 3 <= s < 3 * nt + 3 /\ sel s = true /\ cnt s + 1 = j.
Proof.
  intros H. assert (Q : forall c, 3 <= c -> j <= cnt c -> exists s, 3 <= s < c /\ sel s = true /\ cnt s + 1 = j).
  { intros c Hc. pattern c. apply (Zlt_lower_bound_ind _ 3); [|exact Hc]. clear c Hc.
    intros c IH Hc Hj. destruct (Z.eq_dec c 3) as [->|N3]; [rewrite cnt_start in Hj; lia|].
    pose proof (cnt_next (c - 1) ltac:(lia)) as CN. replace (c - 1 + 1) with c in CN by lia.
    destruct (Z_le_gt_dec j (cnt (c - 1))) as [Hl|Hg].
    - destruct (IH (c - 1) ltac:(lia) Hl) as (s & A & B & C). exists s. split; [lia|]. auto.
    - destruct (sel (c - 1)) eqn:Sl; [|lia]. exists (c - 1). split; [lia|]. split; [exact Sl|]. lia. }
  apply Q; lia.
Qed.

Lemma cnt_inj s s' : 3 <= s -> 3 <= s' -> sel s = true -> sel s' = true -> cnt s = cnt s' -> s = s'.
Proof.
  intros H H' S S' E. destruct (Z.eq_dec s s') as [|N]; [assumption|exfalso].
  pose proof (cnt_next s H) as A. rewrite S in A. pose proof (cnt_next s' H') as A'. rewrite S' in A'.
  destruct (Z_lt_le_dec s s').
  - pose proof (cnt_mono (s + 1) s' ltac:(lia)). lia.
  - pose proof (cnt_mono (s' + 1) s ltac:(lia)). lia.
Qed.

End Made.
