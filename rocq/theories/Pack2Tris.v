(** Invariant of the compaction of the triangles and of their adjacencies. *)
From Coq Require Import ZArith List Bool Lia.
From Verif Require Import CBase SurfModel Tria2 Pack2 Pack2Proofs.
Import ListNotations.
Open Scope Z_scope.

Section Tris.
Variables (nt ntmax : Z) (w : arr vert) (a0 : arr tri) (adj0 : arr Z).
Hypotheses (Hnt : 0 <= nt <= ntmax) (Hlen : alen a0 = ntmax + 1) (Hadj : alen adj0 = 3 * ntmax + 5).
Hypothesis Hdead : forall k, 1 <= k <= nt -> t_eok (aget a0 k) = false -> t_v (aget a0 k) 0 = 0.
Hypothesis Hpts : forall k i, 1 <= k <= nt -> t_eok (aget a0 k) = true -> 0 <= i < 3 ->
  0 <= t_v (aget a0 k) i < alen w /\ 0 < w_tmp (aget w (t_v (aget a0 k) i)).

Definition T (k : Z) : bool := t_eok (aget a0 k).
Definition RT : Z -> Z := rank T.

(** A side has the code [3k+i]; its cell of the table has number [3k+i-2]. *)
Definition live (c : Z) : Prop := 3 <= c < 3 * nt + 3 /\ T (c / 3) = true.
Definition A0 (c : Z) : Z := aget adj0 (c - 2).
Hypothesis Hsym : forall c, live c -> A0 c = 0 \/ (live (A0 c) /\ A0 c <> c /\ A0 (A0 c) = c).
Hypothesis Hout : forall c, 3 <= c -> ~ live c -> A0 c = 0.

(** Where the side [c] is when the sides before [n] have been treated. *)
Definition at_ (n c : Z) : Z := if c <? n then 3 * RT (c / 3) + c mod 3 else c.

Definition Ad (n : Z) (adj : arr Z) : Prop :=
  alen adj = alen adj0 /\
  (forall c, live c -> aget adj (at_ n c - 2) = if A0 c =? 0 then 0 else at_ n (A0 c)) /\
  (forall x, 3 <= x -> (forall c, live c -> at_ n c <> x) -> aget adj (x - 2) = 0).

Lemma div3 k i : 0 <= i < 3 -> (3 * k + i) / 3 = k /\ (3 * k + i) mod 3 = i.
Proof. clear. intros H. split; symmetry; [apply (Z.div_unique _ 3 k i) | apply (Z.mod_unique _ 3 k i)]; lia. Qed.

Lemma code3 c : c = 3 * (c / 3) + c mod 3 /\ 0 <= c mod 3 < 3.
Proof. clear. split; [apply Z.div_mod; lia | apply Z.mod_pos_bound; lia]. Qed.

Lemma live_k c : live c -> 1 <= c / 3 <= nt.
Proof. clear. intros (H & _). pose proof (code3 c). lia. Qed.

Lemma RT_pos k : 1 <= k -> T k = true -> 1 <= RT k <= k.
Proof. clear. intros H E. unfold RT. pose proof (rank_bounds T k ltac:(lia)). pose proof (rank_lt T 0 k ltac:(lia) E) as X. rewrite rank_0 in X. lia. Qed.

Lemma at_le n c : live c -> 3 <= at_ n c <= c.
Proof.
  clear -Hnt. intros L. pose proof (live_k c L) as K. pose proof (RT_pos _ (proj1 K) (proj2 L)). pose proof (code3 c). unfold at_.
  destruct (Z.ltb_spec c n); destruct L; lia.
Qed.

Lemma at_inj n c d : live c -> live d -> at_ n c = at_ n d -> c = d.
Proof.
  clear -Hnt. intros L M E. pose proof (live_k c L) as K. pose proof (live_k d M) as K'.
  pose proof (RT_pos _ (proj1 K) (proj2 L)) as B. pose proof (RT_pos _ (proj1 K') (proj2 M)) as B'.
  pose proof (code3 c). pose proof (code3 d). unfold at_ in E.
  destruct (Z.ltb_spec c n), (Z.ltb_spec d n); try lia.
  assert (RT (c / 3) = RT (d / 3)) as ER by lia.
  assert (c / 3 = d / 3) by (apply (rank_inj T); [lia | lia | apply L | apply M | exact ER]). lia.
Qed.

(** The move of one side. *)
Lemma step_side n k i : 1 <= k <= nt -> T k = true -> 0 <= i < 3 -> n = 3 * k + i -> RT k <> k ->
  forall adj, Ad n adj ->
  exists adj', (x <- rd adj (3 * (k - 1) + 1 + i) ;;
    adj <- wr adj (3 * (RT k - 1) + 1 + i) x ;;
    if x =? 0 then Ret adj
    else
      adj <- wr adj (3 * (Z.quot x 3 - 1) + 1 + Z.rem x 3) (3 * RT k + i) ;;
      wr adj (3 * (k - 1) + 1 + i) 0) = Ret adj' /\ Ad (n + 1) adj'.
Proof.
  intros Hk Tk Hi En Ne adj (AL & AV & AZ).
  pose proof (RT_pos k (proj1 Hk) Tk) as RB. destruct (div3 k i Hi) as [Dk Mk].
  assert (Ln : live n). { split; [lia|]. rewrite En, Dk. exact Tk. }
  assert (An : at_ n n = n). { unfold at_. rewrite Z.ltb_irrefl. reflexivity. }
  assert (At : forall c, live c -> c <> n -> at_ (n + 1) c = at_ n c).
  { clear. intros c L N. unfold at_. destruct (Z.ltb_spec c (n + 1)), (Z.ltb_spec c n); try reflexivity; lia. }
  assert (Atn : at_ (n + 1) n = 3 * RT k + i).
  { unfold at_. destruct (Z.ltb_spec n (n + 1)); [|lia]. rewrite En, Dk, Mk. reflexivity. }
  assert (Nd : forall c, live c -> at_ n c <> 3 * RT k + i).
  { intros c L E. destruct (Z.eq_dec c n) as [->|N]; [rewrite An in E; lia|].
    rewrite <- (At c L N), <- Atn in E. apply N. apply (at_inj (n + 1)); assumption. }
  set (d := 3 * RT k + i) in *.
  rewrite rd_ok by lia. cbn [bind]. replace (3 * (k - 1) + 1 + i) with (n - 2) by lia. replace (3 * (RT k - 1) + 1 + i) with (d - 2) by (unfold d; lia).
  rewrite wr_ok by (unfold d; lia). cbn [bind]. pose proof (AV n Ln) as Vn. rewrite An in Vn. rewrite Vn.
  destruct (Z.eqb_spec (A0 n) 0) as [Z0|Nz].
  - rewrite Z.eqb_refl. eexists. split; [reflexivity|]. split; [exact AL|]. split.
    + intros c L. cbn [aget]. destruct (Z.eq_dec c n) as [->|N].
      * rewrite Atn, upd_same, Z0. reflexivity.
      * rewrite At by assumption. rewrite upd_other by (pose proof (Nd c L); lia). rewrite AV by assumption.
        destruct (Z.eqb_spec (A0 c) 0) as [|Nc]; [reflexivity|]. destruct (Hsym c L) as [|(L' & _ & B)]; [contradiction|].
        symmetry. apply At; [assumption|]. intros E. rewrite E in B. destruct L. lia.
    + intros x Hx X. cbn [aget]. assert (x <> d) by (intros ->; apply (X n Ln); exact Atn).
      rewrite upd_other by lia. destruct (Z.eq_dec x n) as [->|N]; [exact Vn|].
      apply AZ; [assumption|]. intros c L E. destruct (Z.eq_dec c n) as [->|Nc]; [rewrite An in E; congruence|].
      apply (X c L). rewrite At by assumption. exact E.
  - destruct (Hsym n Ln) as [|(Lp & Np & Bp)]; [contradiction|]. set (p := A0 n) in *.
    pose proof (at_le n p Lp) as Bx. destruct (Z.eqb_spec (at_ n p) 0) as [|_]; [lia|].
    assert (EX : 3 * (Z.quot (at_ n p) 3 - 1) + 1 + Z.rem (at_ n p) 3 = at_ n p - 2).
    { pose proof (Z.quot_rem' (at_ n p) 3). lia. }
    rewrite EX. destruct Lp as [Lp1 Lp2]. assert (Lp : live p) by (split; assumption).
    rewrite wr_ok by (cbn [alen]; lia). cbn [bind]. rewrite wr_ok by (cbn [alen]; lia).
    assert (Xn : at_ n p <> n). { intros E. apply Np. apply (at_inj n); [assumption..|]. rewrite An. exact E. }
    pose proof (Nd p Lp) as Xd.
    assert (Dn : d <> n) by (unfold d; lia).
    eexists. split; [reflexivity|]. split; [exact AL|]. split.
    + intros c L. cbn [aget]. destruct (Z.eq_dec c n) as [->|N].
      * rewrite Atn. rewrite upd_other by lia. rewrite upd_other by lia. rewrite upd_same.
        fold p. destruct (Z.eqb_spec p 0); [lia|]. symmetry. apply At; assumption.
      * rewrite At by assumption.
        assert (C1 : at_ n c <> n). { intros E. apply N. apply (at_inj n); [assumption..|]. rewrite An. exact E. }
        rewrite upd_other by lia. destruct (Z.eq_dec c p) as [->|Ncp].
        -- rewrite upd_same. rewrite Bp. destruct (Z.eqb_spec n 0); [lia|]. symmetry. exact Atn.
        -- assert (C2 : at_ n c <> at_ n p) by (intros E; apply Ncp; apply (at_inj n); assumption).
           rewrite upd_other by lia. rewrite upd_other by (pose proof (Nd c L); lia). rewrite AV by assumption.
           destruct (Z.eqb_spec (A0 c) 0) as [|Nc]; [reflexivity|]. destruct (Hsym c L) as [|(L' & _ & B)]; [contradiction|].
           symmetry. apply At; [assumption|]. intros E. rewrite E in B. fold p in B. congruence.
    + intros x Hx X. cbn [aget]. destruct (Z.eq_dec x n) as [->|N]; [apply upd_same|]. rewrite upd_other by lia.
      assert (x <> at_ n p) by (intros ->; apply (X p Lp); apply At; assumption). rewrite upd_other by lia.
      assert (x <> d) by (intros ->; apply (X n Ln); exact Atn). rewrite upd_other by lia.
      apply AZ; [assumption|]. intros c L E. destruct (Z.eq_dec c n) as [->|Nc]; [rewrite An in E; congruence|].
      apply (X c L). rewrite At by assumption. exact E.
Qed.

Lemma move2_ok k adj : 1 <= k <= nt -> T k = true -> RT k <> k -> Ad (3 * k) adj ->
  exists adj', move2 k (RT k) adj = Ret adj' /\ Ad (3 * (k + 1)) adj'.
Proof.
  intros Hk Tk Ne H. unfold move2.
  destruct (@for_range_inv _ (fun i adj => Ad (3 * k + i) adj) (fun i adj =>
    x <- rd adj (3 * (k - 1) + 1 + i) ;;
    adj <- wr adj (3 * (RT k - 1) + 1 + i) x ;;
    if x =? 0 then Ret adj
    else
      adj <- wr adj (3 * (Z.quot x 3 - 1) + 1 + Z.rem x 3) (3 * RT k + i) ;;
      wr adj (3 * (k - 1) + 1 + i) 0) 0 2 adj ltac:(lia)) as (adj' & E & A).
  - replace (3 * k + 0) with (3 * k) by lia. exact H.
  - intros i b Hi HA. destruct (step_side (3 * k + i) k i Hk Tk ltac:(lia) eq_refl Ne b HA) as (b' & E & A).
    exists b'. split; [exact E|]. replace (3 * k + (i + 1)) with (3 * k + i + 1) by lia. exact A.
  - exists adj'. split; [exact E|]. replace (3 * (k + 1)) with (3 * k + (2 + 1)) by lia. exact A.
Qed.

(** Nothing to do when the triangle stays or is a hole. *)
Lemma Ad_ext n m adj : (forall c, live c -> at_ m c = at_ n c) -> Ad n adj -> Ad m adj.
Proof.
  intros H (A & B & C). split; [exact A|]. split.
  - intros c L. rewrite H by assumption. rewrite B by assumption. destruct (Z.eqb_spec (A0 c) 0); [reflexivity|].
    destruct (Hsym c L) as [|(L' & _)]; [contradiction|]. symmetry. apply H; assumption.
  - intros x Hx X. apply C; [assumption|]. intros c L. rewrite <- H by assumption. apply X; assumption.
Qed.

Lemma Ad_same k adj : 1 <= k <= nt -> (T k = true -> RT k = k) -> Ad (3 * k) adj -> Ad (3 * (k + 1)) adj.
Proof.
  intros Hk H. apply Ad_ext. intros c L. unfold at_. pose proof (code3 c).
  destruct (Z.ltb_spec c (3 * (k + 1))), (Z.ltb_spec c (3 * k)); try reflexivity; try lia.
  assert (c / 3 = k) as E by lia. destruct L as [_ L2]. rewrite E in *. rewrite H by assumption. lia.
Qed.

(** ** The loop on the triangles *)
Definition moved (t u : tri) : Prop :=
  (forall i, 0 <= i < 3 -> t_v u i = w_tmp (aget w (t_v t i))) /\
  t_tag u = t_tag t /\ t_edg u = t_edg t /\ t_ref u = t_ref t.

Definition Tr (k : Z) (st : arr tri * arr Z * Z * Z) : Prop :=
  let '(a, adj, n, nbl) := st in
  alen a = alen a0 /\ n = RT (k - 1) /\ nbl = RT (k - 1) + 1 /\ Ad (3 * k) adj /\
  (forall l, 1 <= l < k -> T l = true -> moved (aget a0 l) (aget a (RT l))) /\
  (forall l, RT (k - 1) < l < k -> t_v (aget a l) 0 = 0) /\
  (forall l, k <= l -> aget a l = aget a0 l).

Lemma pack_tris_ok : exists a adj nbl, pack_tris nt w a0 adj0 = Ret (a, adj, RT nt, nbl) /\
  alen a = alen a0 /\ Ad (3 * (nt + 1)) adj /\
  (forall l, 1 <= l <= nt -> T l = true -> moved (aget a0 l) (aget a (RT l))) /\
  (forall l, RT nt < l <= nt -> t_v (aget a l) 0 = 0) /\
  (forall l, nt < l -> aget a l = aget a0 l).
Proof.
  unfold pack_tris.
  match goal with |- context [for_range 1 nt ?f (a0, adj0, 0, 1)] =>
    destruct (@for_range_inv _ Tr f 1 nt (a0, adj0, 0, 1) ltac:(lia)) as ((((a & adj) & n) & nbl) & E & A & B & C & D & F & G & H) end.
  - cbn [Tr]. split; [reflexivity|]. split; [reflexivity|]. split; [reflexivity|]. split; [|split; [lia | split; [|reflexivity]]].
    + assert (Q : forall c, live c -> at_ (3 * 1) c = c).
      { intros c (L & _). unfold at_. destruct (Z.ltb_spec c (3 * 1)); [lia | reflexivity]. }
      split; [reflexivity|]. split.
      * intros c L. rewrite Q by assumption. destruct (Z.eqb_spec (A0 c) 0) as [Z0|Nz]; [exact Z0|].
        destruct (Hsym c L) as [|(L' & _)]; [contradiction|]. rewrite Q by assumption. reflexivity.
      * intros x Hx X. apply (Hout x Hx). intros L. apply (X x L). apply Q. exact L.
    + intros l Hl. replace (1 - 1) with 0 in Hl by lia. unfold RT in Hl. rewrite rank_0 in Hl. lia.
  - intros k (((a & adj) & n) & nbl) Hk (A & B & C & D & F & G & H).
    rewrite rd_ok by lia. cbn [bind]. rewrite (H k ltac:(lia)). change (t_eok (aget a0 k)) with (T k).
    pose proof (rank_at T k ltac:(lia)) as RA. fold RT in RA. pose proof (rank_bounds T (k - 1) ltac:(lia)) as RB. fold RT in RB.
    destruct (T k) eqn:Tk.
    + pose proof (fun i Hi => Hpts k i Hk Tk Hi) as HP. unfold ren_tri.
      rewrite rd_ok by (apply HP; lia). cbn [bind]. rewrite rd_ok by (apply HP; lia). cbn [bind]. rewrite rd_ok by (apply HP; lia). cbn [bind].
      match goal with |- context [wr a k ?t] => set (u := t) end.
      assert (MU : moved (aget a0 k) u).
      { split; [|split; [reflexivity | split; reflexivity]]. intros i Hi. assert (i = 0 \/ i = 1 \/ i = 2) as Ci by lia.
        destruct Ci as [->|[->| ->]]; reflexivity. }
      rewrite wr_ok by lia. cbn [bind]. destruct (Z.eqb_spec k nbl) as [En|Nn].
      * eexists. split; [reflexivity|]. cbn [Tr]. replace (k + 1 - 1) with k by lia. split; [exact A|]. split; [lia|]. split; [lia|].
        split; [apply Ad_same; [assumption | lia | exact D]|]. split; [|split].
        -- intros l Hl Tl. cbn [aget]. destruct (Z.eq_dec l k) as [->|N].
           ++ replace (RT k) with k by lia. rewrite upd_same. exact MU.
           ++ pose proof (rank_lt T l k ltac:(lia) Tk) as X. fold RT in X. rewrite upd_other by lia. apply F; [lia | assumption].
        -- intros l Hl. lia.
        -- intros l Hl. cbn [aget]. rewrite upd_other by lia. apply H. lia.
      * assert (RN : RT k = nbl) by lia. rewrite wr_ok by (cbn [alen]; lia). cbn [bind].
        destruct (move2_ok k adj Hk Tk ltac:(lia) D) as (adj' & E' & D'). rewrite <- RN, E'. cbn [bind].
        rewrite wr_ok by (cbn [alen]; lia). cbn [bind].
        eexists. split; [reflexivity|]. cbn [Tr]. replace (k + 1 - 1) with k by lia. split; [exact A|]. split; [lia|]. split; [lia|].
        split; [exact D'|]. split; [|split].
        -- intros l Hl Tl. cbn [aget]. pose proof (rank_mono T l k ltac:(lia)) as X. fold RT in X. rewrite upd_other by lia.
           destruct (Z.eq_dec l k) as [->|N]; [rewrite upd_same; exact MU|].
           pose proof (rank_lt T l k ltac:(lia) Tk) as Y. fold RT in Y. rewrite upd_other by lia. rewrite upd_other by lia. apply F; [lia | assumption].
        -- intros l Hl. cbn [aget]. destruct (Z.eq_dec l k) as [->|N]; [rewrite upd_same; reflexivity|].
           rewrite !upd_other by lia. apply G. lia.
        -- intros l Hl. cbn [aget]. rewrite !upd_other by lia. apply H. lia.
    + eexists. split; [reflexivity|]. cbn [Tr]. replace (k + 1 - 1) with k by lia. split; [exact A|]. split; [lia|]. split; [lia|].
      split; [apply Ad_same; [assumption | congruence | exact D]|]. split; [|split].
      * intros l Hl Tl. apply F; [|assumption]. assert (l <> k) by congruence. lia.
      * intros l Hl. destruct (Z.eq_dec l k) as [->|N]; [rewrite H by lia; apply Hdead; [lia | exact Tk]|]. apply G. lia.
      * intros l Hl. apply H. lia.
  - exists a, adj, nbl. replace (nt + 1 - 1) with nt in * by lia. rewrite E, B. split; [reflexivity|]. split; [exact A|]. split; [exact D|].
    split; [intros l Hl; apply F; lia|]. split; [intros l Hl; apply G; lia|]. intros l Hl. apply H. lia.
Qed.
End Tris.

(** The ends of the edges. *)
Lemma edges_ends_ok na w ed0 : 0 <= na -> (0 < na -> na < alen ed0) ->
  (forall k, 1 <= k <= na -> 0 < e_a (aget ed0 k) < alen w /\ 0 < e_b (aget ed0 k) < alen w) ->
  exists ed, edges_ends na w ed0 = Ret ed /\
    forall k, 1 <= k <= na -> aget ed k =
      mkE (w_tmp (aget w (e_a (aget ed0 k)))) (w_tmp (aget w (e_b (aget ed0 k)))) (e_ref (aget ed0 k)) (e_tag (aget ed0 k)).
Proof.
  intros H0 HL HE. unfold edges_ends.
  match goal with |- context [for_range 1 na ?f ed0] =>
    destruct (@for_range_inv _ (fun k ed => alen ed = alen ed0 /\
      (forall l, 1 <= l < k -> aget ed l =
        mkE (w_tmp (aget w (e_a (aget ed0 l)))) (w_tmp (aget w (e_b (aget ed0 l)))) (e_ref (aget ed0 l)) (e_tag (aget ed0 l))) /\
      (forall l, k <= l -> aget ed l = aget ed0 l)) f 1 na ed0 ltac:(lia)) as (ed & E & A & B & C) end.
  - split; [reflexivity|]. split; [lia | reflexivity].
  - intros k ed Hk (A & B & C). pose proof (HE k Hk). rewrite rd_ok by lia. cbn [bind]. rewrite (C k ltac:(lia)).
    destruct (Z.eqb_spec (e_a (aget ed0 k)) 0); [lia|]. rewrite rd_ok by lia. cbn [bind]. rewrite rd_ok by lia. cbn [bind]. rewrite wr_ok by lia.
    eexists. split; [reflexivity|]. split; [exact A|]. split.
    + intros l Hl. cbn [aget]. destruct (Z.eq_dec l k) as [->|N]; [apply upd_same|]. rewrite upd_other by lia. apply B. lia.
    + intros l Hl. cbn [aget]. rewrite upd_other by lia. apply C. lia.
  - exists ed. split; [exact E|]. intros k Hk. apply B. lia.
Qed.
