(** Proofs about [MMG2D_setadj]: the loops and the components. *)
From Coq Require Import ZArith List Bool Lia Relations.
From Verif Require Import CBase SurfModel Tria2 Setadj2 Setadj2Proofs.
Import ListNotations.
Open Scope Z_scope.

Lemma filter_sub (f g : Z -> bool) l : (forall x, In x l -> g x = true -> f x = true) -> (length (filter g l) <= length (filter f l))%nat.
Proof.
  induction l as [|x l IH]; intros H; [cbn; lia|]. cbn [filter]. assert (IH' := IH (fun y h => H y (or_intror h))).
  destruct (g x) eqn:G; [rewrite (H x (or_introl eq_refl) G); cbn; lia|]. destruct (f x); cbn; lia.
Qed.
Lemma filter_lt (f g : Z -> bool) l y : (forall x, In x l -> g x = true -> f x = true) -> In y l -> f y = true -> g y = false ->
  (length (filter g l) < length (filter f l))%nat.
Proof.
  induction l as [|x l IH]; intros H Hy Fy Gy; [destruct Hy|]. cbn [filter]. assert (H' := fun z h => H z (or_intror h)).
  destruct Hy as [->|Hy].
  - rewrite Fy, Gy. cbn. pose proof (filter_sub f g l H'). lia.
  - assert (IH' := IH H' Hy Fy Gy). destruct (g x) eqn:G; [rewrite (H x (or_introl eq_refl) G); cbn; lia|]. destruct (f x); cbn; lia.
Qed.

Lemma kf_of k i : 0 <= i < 3 -> kf (cell k i) = k /\ sf (cell k i) = i.
Proof.
  intros Hi. unfold kf, sf, cell. replace (3 * (k - 1) + 1 + i - 1) with (i + (k - 1) * 3) by lia.
  rewrite Z.div_add, Z.mod_add, Z.div_small, Z.mod_small by lia. lia.
Qed.

Lemma sf_range q : 0 <= sf q < 3.
Proof. unfold sf. apply Z.mod_pos_bound. lia. Qed.

Section Loop.
Variables (opn nosurf : bool) (nt ntmax : Z) (a : arr tri) (adj tg0 w0 : arr Z).
Notation live := (live nt a).
Notation P := (P adj).
Notation bnd := (bnd opn a adj tg0).
Notation TagInv := (TagInv opn nosurf nt ntmax a adj tg0).
Notation PtInv := (PtInv opn nosurf nt a adj tg0 w0).

Hypothesis Hnt : 0 < nt <= ntmax.
Hypothesis Ha : alen a = ntmax + 1.
Hypothesis Hadj : alen adj = 3 * ntmax + 5.
Hypothesis HA : forall q, live q -> aget adj q = 0 \/ (live (P q) /\ P q <> q /\ aget adj (P q) = q + 2).
Hypothesis HR : forall q, live q -> 0 <= rf a q.
Hypothesis HV : forall q, live q -> 0 <= en1 a q < alen w0 /\ 0 <= en2 a q < alen w0.
Hypothesis HE : forall k, 1 <= k <= nt -> t_v (aget a k) 0 <> 0 -> 0 < t_v (aget a k) 0.

Definition T (k : Z) : Prop := 1 <= k <= nt /\ t_v (aget a k) 0 <> 0.
Definition cross (q : Z) : Prop := aget adj q <> 0 /\ bnd q = false.
Definition stp (k l : Z) : Prop := exists q, live q /\ cross q /\ kf q = k /\ kf (P q) = l.
Definition conn : Z -> Z -> Prop := clos_refl_sym_trans Z stp.
(** First number in use. *)
Definition lo : Z := if t_v (aget a 1) 0 =? 0 then 2 else 1.

Lemma live_cell k i : T k -> 0 <= i < 3 -> live (cell k i).
Proof. intros [H N] Hi. destruct (kf_of k i Hi) as [E _]. split; [clear -H Hi; unfold cell; lia | rewrite E; exact N]. Qed.
Lemma T_kf q : live q -> T (kf q).
Proof. intros L. split; [apply (kf_range nt a adj w0 HA HR HV q L) | apply L]. Qed.

Definition zs : list Z := map Z.of_nat (seq 1 (Z.to_nat nt)).
Lemma in_zs k : In k zs <-> 1 <= k <= nt.
Proof.
  clear.
  unfold zs. rewrite in_map_iff. split.
  - intros (n & <- & H). apply in_seq in H. lia.
  - intros H. exists (Z.to_nat k). split; [lia|]. apply in_seq. lia.
Qed.
Lemma len_zs : length zs = Z.to_nat nt.
Proof. unfold zs. rewrite map_length, seq_length. reflexivity. Qed.
Definition U (cc : Z -> Z) : nat := length (filter (fun k => negb (t_v (aget a k) 0 =? 0) && (cc k =? 0)) zs).
Lemma U_le cc : (U cc <= Z.to_nat nt)%nat.
Proof. clear. unfold U. rewrite <- len_zs. generalize zs. intros l. induction l as [|x l IH]; [cbn; lia|]. cbn [filter]. destruct (_ && _); cbn; lia. Qed.
Lemma U_dec cc k c : T k -> cc k = 0 -> c <> 0 -> (U (upd cc k c) < U cc)%nat.
Proof.
  intros [Hk N] E Nc. unfold U. apply (filter_lt _ _ _ k).
  - intros x _. rewrite !andb_true_iff, !Z.eqb_eq. intros [A B]. split; [exact A|]. destruct (Z.eq_dec x k) as [->|Nx]; [exact E|].
    rewrite upd_other in B by exact Nx. exact B.
  - apply in_zs. exact Hk.
  - rewrite E. destruct (Z.eqb_spec (t_v (aget a k) 0) 0); [contradiction|reflexivity].
  - rewrite upd_same. destruct (Z.eqb_spec c 0); [contradiction|]. apply andb_false_r.
Qed.

Record Inv (ncc cur : Z) (D : Z -> bool) (s : st2) : Prop := {
  v_tag : TagInv D (g_tg s);
  v_pt : PtInv D (g_pt s);
  v_len : alen (g_cc s) = ntmax + 1;
  v_pos : 1 <= ncc;
  v_rng : forall k, T k -> 0 <= aget (g_cc s) k <= ncc;
  v_pile : forall k, In k (g_pile s) -> T k /\ aget (g_cc s) k = ncc;
  v_nd : NoDup (g_pile s);
  v_D : forall q, D q = true -> live q /\ aget (g_cc s) (kf q) <> 0 /\ ~ In (kf q) (g_pile s);
  v_all : forall k, T k -> aget (g_cc s) k <> 0 -> In k (g_pile s) \/ k = cur \/ forall i, 0 <= i < 3 -> D (cell k i) = true;
  v_clo : forall q, D q = true -> cross q -> aget (g_cc s) (kf (P q)) = aget (g_cc s) (kf q);
  v_conn : forall k l, T k -> T l -> aget (g_cc s) k = aget (g_cc s) l -> aget (g_cc s) k <> 0 -> conn k l;
  v_some : forall c, lo <= c <= ncc -> exists k, T k /\ aget (g_cc s) k = c }.

Definition room (s : st2) : nat := 2 * U (aget (g_cc s)) + length (g_pile s).

Lemma push2_ok kk p : NoDup (kk :: p) -> (forall k, In k (kk :: p) -> T k) -> push2 nt kk p = Ret (kk :: p).
Proof.
  intros N I. unfold push2, c_assert. assert (Hl : (length (kk :: p) <= length zs)%nat).
  { apply NoDup_incl_length; [exact N|]. intros k Hk. apply in_zs. apply (I k Hk). }
  rewrite len_zs in Hl. cbn [length] in Hl. destruct (Z.leb_spec (Z.of_nat (length p) + 1) nt); [reflexivity|lia].
Qed.

Lemma visit_ok ncc q D s : Inv ncc (kf q) D s -> live q -> D q = false -> aget (g_cc s) (kf q) = ncc -> ~ In (kf q) (g_pile s) ->
  exists s', visit2 opn nosurf nt a adj ncc (kf q) (sf q) s = Ret s' /\ Inv ncc (kf q) (addD D q) s' /\
    aget (g_cc s') (kf q) = ncc /\ ~ In (kf q) (g_pile s') /\ (room s' <= room s)%nat.
Proof.
  intros I L Dq Ck Nk. pose proof (v_pos _ _ _ _ I) as Hpos. destruct s as [tg cc w pile]. cbn [g_tg g_cc g_pt g_pile] in *.
  destruct (visit2_marks opn nosurf nt ntmax a adj tg0 w0 ltac:(clear -Hnt; lia) Ha Hadj HA HR HV ncc D tg cc w pile q L Dq (v_tag _ _ _ _ I) (v_pt _ _ _ _ I))
    as (tg' & w' & T' & P' & ->).
  assert (Same : (cross q -> aget cc (kf (P q)) = ncc) -> Inv ncc (kf q) (addD D q) (mkSt tg' cc w' pile)).
  { intros Hc. constructor; cbn [g_tg g_cc g_pt g_pile]; try apply I; try assumption.
    - intros r Dr. apply orb_true_iff in Dr as [Dr|Dr]; [apply (v_D _ _ _ _ I r Dr)|]. apply Z.eqb_eq in Dr as ->. split; [exact L|]. split; [lia|exact Nk].
    - intros k Hk Nz. destruct (v_all _ _ _ _ I k Hk Nz) as [|[|H]]; auto. right. right. intros i Hi. unfold addD. rewrite (H i Hi). reflexivity.
    - intros r Dr Cr. apply orb_true_iff in Dr as [Dr|Dr]; [apply (v_clo _ _ _ _ I r Dr Cr)|]. apply Z.eqb_eq in Dr as ->. rewrite (Hc Cr). auto. }
  destruct (Z.eqb_spec (aget adj q) 0) as [Z0|N0]; [|destruct (bnd q) eqn:B].
  - cbn [orb]. eexists. split; [reflexivity|]. split; [apply Same; intros [C _]; contradiction|]. repeat split; auto.
  - cbn [orb]. eexists. split; [reflexivity|]. split; [apply Same; intros [_ C]; congruence|]. repeat split; auto.
  - cbn [orb]. destruct (P_nz nt a adj w0 HA HR HV q L N0) as (Lp & Np & X & Pp). pose proof (T_kf _ Lp) as Tp. pose proof (T_kf _ L) as Tq.
    assert (Hr : 0 <= kf (P q) < alen cc) by (pose proof (v_len _ _ _ _ I) as Hl; cbn [g_cc] in Hl; destruct Tp as [Tp _]; clear -Hl Tp Hnt; lia).
    rewrite rd_ok by exact Hr. cbn [bind]. destruct (v_rng _ _ _ _ I _ Tp) as [R1 R2]. cbn [g_cc] in R1, R2.
    destruct (Z.ltb_spec 0 (aget cc (kf (P q)))) as [Hp|Hz].
    + eexists. split; [reflexivity|]. split; [|repeat split; auto]. apply Same. intros Cq.
      destruct (v_all _ _ _ _ I _ Tp) as [H|[H|H]]; cbn [g_cc g_pile] in *.
      * lia.
      * apply (v_pile _ _ _ _ I _ H).
      * rewrite H. exact Ck.
      * assert (Dp : D (P q) = true) by (rewrite <- (kf_cell (P q)); apply H, sf_range).
        assert (Cp : cross (P q)).
        { split; [rewrite X; destruct L; lia|]. rewrite (bnd_sym opn nt a adj tg0 w0 HA HR HV q L N0). exact B. }
        pose proof (v_clo _ _ _ _ I _ Dp Cp) as E. cbn [g_cc] in E. rewrite Pp in E. congruence.
    + assert (E0 : aget cc (kf (P q)) = 0) by lia. assert (Nkk : kf (P q) <> kf q) by (intros E; rewrite E in E0; lia).
      assert (Npi : ~ In (kf (P q)) pile).
      { intros H. destruct (v_pile _ _ _ _ I _ H) as [_ E]. cbn [g_cc] in E. lia. }
      assert (ND : NoDup (kf (P q) :: pile)) by (constructor; [exact Npi | exact (v_nd _ _ _ _ I)]).
      rewrite push2_ok; [| exact ND | intros k [<-|H]; [exact Tp | apply (v_pile _ _ _ _ I _ H)]].
      cbn [bind]. rewrite wr_ok by exact Hr. cbn [bind]. eexists. split; [reflexivity|].
      assert (Hcn : conn (kf (P q)) (kf q)).
      { apply rst_sym, rst_step. exists q. split; [exact L|]. split; [split; [exact N0|exact B]|]. auto. }
      assert (Up : forall k, upd (aget cc) (kf (P q)) ncc k = if k =? kf (P q) then ncc else aget cc k).
      { intros k. destruct (Z.eqb_spec k (kf (P q))) as [->|N]; [apply upd_same | apply upd_other; exact N]. }
      split; [constructor|]; cbn [g_tg g_cc g_pt g_pile alen aget]; try assumption; try apply I.
      * intros k Hk. rewrite Up. destruct (_ =? _); [lia | apply (v_rng _ _ _ _ I k Hk)].
      * intros k Hk. rewrite Up. destruct (Z.eqb_spec k (kf (P q))) as [->|N]; [auto|]. destruct Hk as [<-|H]; [contradiction|]. apply (v_pile _ _ _ _ I k H).
      * intros r Dr. rewrite Up. apply orb_true_iff in Dr as [Dr|Dr].
        -- destruct (v_D _ _ _ _ I r Dr) as (A1 & A2 & A3). cbn [g_cc g_pile] in *. split; [exact A1|].
           destruct (Z.eqb_spec (kf r) (kf (P q))) as [E|N]; [rewrite E in A2; contradiction|]. split; [exact A2|]. intros [C|C]; congruence.
        -- apply Z.eqb_eq in Dr as ->. split; [exact L|]. destruct (_ =? _); split; try lia; intros [C|C]; congruence.
      * intros k Hk. rewrite Up. destruct (Z.eqb_spec k (kf (P q))) as [->|N]; [intros _; left; left; reflexivity|]. intros Nz.
        destruct (v_all _ _ _ _ I k Hk Nz) as [H|[H|H]]; [left; right; exact H | auto |]. right. right. intros i Hi. unfold addD. rewrite (H i Hi). reflexivity.
      * intros r Dr Cr. rewrite !Up. apply orb_true_iff in Dr as [Dr|Dr].
        -- destruct (v_D _ _ _ _ I r Dr) as (A1 & A2 & A3). cbn [g_cc g_pile] in *.
           pose proof (v_clo _ _ _ _ I r Dr Cr) as E. cbn [g_cc] in E.
           destruct (Z.eqb_spec (kf r) (kf (P q))) as [E1|N1]; [rewrite E1 in A2; contradiction|].
           destruct (Z.eqb_spec (kf (P r)) (kf (P q))) as [E1|N2]; [rewrite E1 in E; congruence | exact E].
        -- apply Z.eqb_eq in Dr as ->. rewrite Z.eqb_refl. destruct (_ =? _); congruence.
      * intros k l Hk Hl. rewrite !Up.
        assert (Far : forall m, T m -> aget cc m = ncc -> conn (kf (P q)) m).
        { intros m Hm E. eapply rst_trans; [exact Hcn|]. apply (v_conn _ _ _ _ I); cbn [g_cc]; [exact Tq | exact Hm | congruence | lia]. }
        destruct (Z.eqb_spec k (kf (P q))) as [->|N1], (Z.eqb_spec l (kf (P q))) as [->|N2]; intros E Nz.
        -- apply rst_refl.
        -- apply Far; [exact Hl | congruence].
        -- apply rst_sym, Far; [exact Hk | congruence].
        -- apply (v_conn _ _ _ _ I); assumption.
      * intros c Hc. destruct (v_some _ _ _ _ I c Hc) as (k & Hk & E). cbn [g_cc] in E. exists k. split; [exact Hk|]. rewrite Up.
        destruct (Z.eqb_spec k (kf (P q))) as [->|N]; [|exact E]. exfalso. unfold lo in Hc. destruct (_ =? _) in Hc; lia.
      * split; [rewrite Up; destruct (_ =? _); auto|]. split; [intros [C|C]; congruence|].
        unfold room. cbn [g_cc g_pile aget length]. pose proof (U_dec (aget cc) (kf (P q)) ncc Tp E0 ltac:(lia)). lia.
Qed.

Lemma visit_cell ncc k i D s : Inv ncc k D s -> T k -> 0 <= i < 3 -> D (cell k i) = false -> aget (g_cc s) k = ncc -> ~ In k (g_pile s) ->
  exists s', visit2 opn nosurf nt a adj ncc k i s = Ret s' /\ Inv ncc k (addD D (cell k i)) s' /\
    aget (g_cc s') k = ncc /\ ~ In k (g_pile s') /\ (room s' <= room s)%nat.
Proof.
  intros I Tk Hi Dq C N. destruct (kf_of k i Hi) as [E1 E2].
  pose proof (visit_ok ncc (cell k i) D s) as V. rewrite E1, E2 in V. apply V; auto. apply live_cell; assumption.
Qed.

Lemma process_ok ncc k p D s : g_pile s = k :: p -> Inv ncc 0 D s ->
  exists s' D', process2 opn nosurf nt a adj ncc k (mkSt (g_tg s) (g_cc s) (g_pt s) p) = Ret s' /\ Inv ncc 0 D' s' /\ (room s' < room s)%nat.
Proof.
  intros Ep I. destruct s as [tg cc w pile]. cbn [g_tg g_cc g_pt g_pile] in *. subst pile.
  destruct (v_pile _ _ _ _ I k (or_introl eq_refl)) as [Tk Ck]. cbn [g_cc] in Ck. pose proof (v_nd _ _ _ _ I) as ND. cbn [g_pile] in ND. inversion ND as [|? ? Nk ND']; subst.
  assert (Nd : forall i, 0 <= i < 3 -> D (cell k i) = false).
  { intros i Hi. destruct (D (cell k i)) eqn:E; [|reflexivity]. destruct (v_D _ _ _ _ I _ E) as (_ & _ & C). destruct (kf_of k i Hi) as [K _]. rewrite K in C. exfalso. apply C. left. reflexivity. }
  assert (I0 : Inv (aget cc k) k D (mkSt tg cc w p)).
  { constructor; cbn [g_tg g_cc g_pt g_pile]; try apply I; try assumption.
    - intros l H. apply (v_pile _ _ _ _ I l (or_intror H)).
    - intros q Dq. destruct (v_D _ _ _ _ I q Dq) as (A & B & C). split; [exact A|]. split; [exact B|]. intros H. apply C. right. exact H.
    - intros l Hl Nz. destruct (v_all _ _ _ _ I l Hl Nz) as [[->|H]|[->|H]]; auto. destruct Hl. lia. }
  unfold process2. rewrite rd_ok by (destruct Tk; rewrite Ha; lia). cbn [bind].
  assert (Eo : t_eok (aget a k) = true) by (unfold t_eok; apply Z.ltb_lt; destruct Tk; auto). rewrite Eo.
  assert (Dne : forall i j, i <> j -> cell k i =? cell k j = false) by (intros i j N; apply Z.eqb_neq; unfold cell; lia).
  destruct (visit_cell _ k 0 D _ I0 Tk ltac:(lia) (Nd 0 ltac:(lia)) eq_refl Nk) as (s1 & -> & I1 & C1 & N1 & R1). cbn [bind].
  destruct (visit_cell _ k 1 _ _ I1 Tk ltac:(lia)) as (s2 & -> & I2 & C2 & N2 & R2); [unfold addD; rewrite (Nd 1), (Dne 1 0) by lia; reflexivity | exact C1 | exact N1 |]. cbn [bind].
  destruct (visit_cell _ k 2 _ _ I2 Tk ltac:(lia)) as (s3 & -> & I3 & C3 & N3 & R3); [unfold addD; rewrite (Nd 2), (Dne 2 0), (Dne 2 1) by lia; reflexivity | exact C2 | exact N2 |].
  exists s3. eexists. split; [reflexivity|]. split.
  - constructor; try apply I3. intros l Hl Nz. destruct (v_all _ _ _ _ I3 l Hl Nz) as [H|[->|H]]; auto.
    right. right. intros i Hi. unfold addD. assert (i = 0 \/ i = 1 \/ i = 2) as [->|[->| ->]] by lia; rewrite Z.eqb_refl; rewrite ?orb_true_r; reflexivity.
  - unfold room in *. cbn [g_cc g_pile length] in *. lia.
Qed.

Lemma next_ok cc fuel : forall kk, alen cc = ntmax + 1 -> 1 <= kk -> kk + Z.of_nat fuel - 1 <= nt ->
  exists o, next2 a fuel kk cc = Ret o /\
   match o with
   | Some k => T k /\ aget cc k = 0
   | None => forall k, kk <= k < kk + Z.of_nat fuel -> t_v (aget a k) 0 <> 0 -> aget cc k <> 0
   end.
Proof.
  clear -Hnt Ha. induction fuel as [|f IH]; intros kk Hl H1 H2.
  - exists None. split; [reflexivity|]. intros k Hk. cbn in Hk. lia.
  - cbn [next2]. rewrite rd_ok by lia. cbn [bind]. rewrite rd_ok by lia. cbn [bind].
    destruct (negb (t_v (aget a kk) 0 =? 0) && (aget cc kk =? 0)) eqn:E.
    + apply andb_true_iff in E as [E1 E2]. apply negb_true_iff, Z.eqb_neq in E1. apply Z.eqb_eq in E2.
      exists (Some kk). split; [reflexivity|]. split; [split; [lia|exact E1] | exact E2].
    + destruct (IH (kk + 1) Hl ltac:(lia) ltac:(lia)) as (o & -> & Ho). exists o. split; [reflexivity|]. destruct o; [exact Ho|].
      intros k Hk N. destruct (Z.eq_dec k kk) as [->|Nk]; [|apply Ho; [lia|exact N]].
      intros C. rewrite C, Z.eqb_refl, andb_true_r in E. apply negb_false_iff, Z.eqb_eq in E. contradiction.
Qed.

Lemma restart_ok ncc D s k : Inv ncc 0 D s -> g_pile s = [] -> T k -> aget (g_cc s) k = 0 ->
  Inv (ncc + 1) 0 D (mkSt (g_tg s) (mkArr (alen (g_cc s)) (upd (aget (g_cc s)) k (ncc + 1))) (g_pt s) [k]).
Proof.
  intros I Ep Tk E0. pose proof (v_pos _ _ _ _ I) as Hpos. destruct s as [tg cc w pile]. cbn [g_tg g_cc g_pt g_pile] in *. subst pile.
  assert (Up : forall l, upd (aget cc) k (ncc + 1) l = if l =? k then ncc + 1 else aget cc l).
  { intros l. destruct (Z.eqb_spec l k) as [->|N]; [apply upd_same | apply upd_other; exact N]. }
  constructor; cbn [g_tg g_cc g_pt g_pile alen aget]; [exact (v_tag _ _ _ _ I) | exact (v_pt _ _ _ _ I) | exact (v_len _ _ _ _ I) | lia | | | | | | | |].
  - intros l Hl. rewrite Up. pose proof (v_rng _ _ _ _ I l Hl) as R. cbn [g_cc] in R. destruct (_ =? _); lia.
  - intros l [<-|[]]. rewrite Up, Z.eqb_refl. auto.
  - constructor; [intros []|constructor].
  - intros q Dq. destruct (v_D _ _ _ _ I q Dq) as (A & B & _). cbn [g_cc] in B. rewrite Up. split; [exact A|].
    destruct (Z.eqb_spec (kf q) k) as [E|N]; [rewrite E in B; contradiction|]. split; [exact B|]. intros [C|[]]. congruence.
  - intros l Hl. rewrite Up. destruct (Z.eqb_spec l k) as [->|N]; [intros _; left; left; reflexivity|]. intros Nz.
    destruct (v_all _ _ _ _ I l Hl Nz) as [[]|H]. right. exact H.
  - intros q Dq Cq. destruct (v_D _ _ _ _ I q Dq) as (A & B & _). pose proof (v_clo _ _ _ _ I q Dq Cq) as E. cbn [g_cc] in B, E. rewrite !Up.
    destruct (Z.eqb_spec (kf q) k) as [E1|N]; [rewrite E1 in B; contradiction|].
    destruct (Z.eqb_spec (kf (P q)) k) as [E1|N2]; [rewrite E1 in E; congruence | exact E].
  - intros l m Hl Hm. rewrite !Up. pose proof (v_rng _ _ _ _ I l Hl) as R1. pose proof (v_rng _ _ _ _ I m Hm) as R2. cbn [g_cc] in R1, R2.
    destruct (Z.eqb_spec l k) as [->|N1], (Z.eqb_spec m k) as [->|N2]; intros E Nz; [apply rst_refl | lia | lia |].
    apply (v_conn _ _ _ _ I); assumption.
  - intros c Hc. destruct (Z.eq_dec c (ncc + 1)) as [->|Nc]; [exists k; split; [exact Tk|]; rewrite Up, Z.eqb_refl; reflexivity|].
    destruct (v_some _ _ _ _ I c ltac:(lia)) as (l & Hl & E). cbn [g_cc] in E. exists l. split; [exact Hl|]. rewrite Up.
    destruct (Z.eqb_spec l k) as [->|N]; [|exact E]. exfalso. unfold lo in Hc. destruct (_ =? _) in Hc; lia.
Qed.

Lemma loop_ok fuel : forall ncc D s, Inv ncc 0 D s -> (room s < fuel)%nat ->
  exists n s' D', loop2 opn nosurf nt a adj fuel ncc s = Ret (n, s') /\ Inv n 0 D' s' /\ g_pile s' = [] /\
    (forall k, T k -> aget (g_cc s') k <> 0).
Proof.
  induction fuel as [|f IH]; intros ncc D s I Hf; [lia|]. cbn [loop2]. destruct (g_pile s) as [|k p] eqn:Ep.
  - destruct (next_ok (g_cc s) (Z.to_nat nt) 1 (v_len _ _ _ _ I) ltac:(lia) ltac:(lia)) as (o & -> & Ho). cbn [bind]. destruct o as [k|].
    + destruct Ho as [Tk E0]. rewrite push2_ok; [| constructor; [intros []|constructor] | intros l [<-|[]]; exact Tk]. cbn [bind].
      rewrite wr_ok by (rewrite (v_len _ _ _ _ I); destruct Tk; lia). cbn [bind].
      apply (IH _ D); [apply restart_ok; assumption|]. unfold room in *. rewrite Ep in Hf. cbn [g_cc g_pile aget length] in *.
      pose proof (U_dec (aget (g_cc s)) k (ncc + 1) Tk E0). pose proof (v_pos _ _ _ _ I). lia.
    + exists ncc, s, D. split; [reflexivity|]. split; [exact I|]. split; [exact Ep|]. intros k [Hk N]. apply Ho; [lia | exact N].
  - destruct (process_ok ncc k p D s Ep I) as (s' & D' & -> & I' & R). cbn [bind]. apply (IH ncc D' s' I'). lia.
Qed.
End Loop.
