(** Proofs about [rmc]: the traversal enumerates a connected component. *)
From Coq Require Import ZArith QArith Qabs Lqa List Bool Lia Relations Permutation.
From Verif Require Import CBase Chain BdryProofs OctModel PropsOct2 SplitModel FracModel RmcModel.
Import ListNotations.
Open Scope Z_scope.

(** ** Vocabulary *)

Definition inside (pm : Z) (x : Q) : Prop := insideb pm x = true.

(** A valid element. *)
Definition elem (m : rmesh) (k : Z) : Prop := 1 <= k <= r_n m /\ eok (aget (r_elt m) k) = true.
(** Its [i]th vertex. *)
Definition vtx (m : rmesh) (k : Z) (i : nat) : Z := ver (aget (r_elt m) k) i.
Definition touch (d : dim) (m : rmesh) (k p : Z) : Prop := elem m k /\ exists i, (i < nv d)%nat /\ vtx m k i = p.
(** Its neighbour through its face [j], 0 if none. *)
Definition nbf (d : dim) (m : rmesh) (k : Z) (j : nat) : Z :=
  aget (r_adja m) (Z.of_nat (nv d) * (k - 1) + 1 + Z.of_nat j) / Z.of_nat (nv d).
(** Neighbours through a face that has a vertex in [phi]. *)
Definition stepr (d : dim) (m : rmesh) (phi : Z -> Prop) (k l : Z) : Prop :=
  elem m k /\ elem m l /\ exists j i, (j < nv d)%nat /\ nbf d m k j = l /\ In i (fac d j) /\ phi (vtx m k i).
Definition conn (d : dim) (m : rmesh) (phi : Z -> Prop) : Z -> Z -> Prop := clos_refl_trans Z (stepr d m phi).

(** Values at the vertices, part of the element on the side [pm]. *)
Definition evals (d : dim) (m : rmesh) (sol : Z -> Q) (k : Z) : list Q := map (fun i => sol (vtx m k i)) (seq 0 (nv d)).
Definition part (d : dim) (m : rmesh) (pm : Z) (sol : Z -> Q) (k : Z) : Q :=
  match frac d (fun i => r_pos m (vtx m k i)) (fun i => nth i (evals d m sol k) 0%Q) pm with Ret x => x | Stuck => 0%Q end.
Definition sumQ (f : Z -> Q) (l : list Z) : Q := fold_right (fun k s => f k + s)%Q 0%Q l.

(** The list [L] enumerates the component of [k]. *)
Definition comp (d : dim) (m : rmesh) (phi : Z -> Prop) (k : Z) (L : list Z) : Prop :=
  NoDup L /\ forall l, In l L <-> conn d m phi k l.

Record dim_ok (d : dim) : Prop := {
  dk_pos : (0 < nv d)%nat;
  dk_lt : forall i j, (i < nv d)%nat -> In j (fac d i) -> (j < nv d)%nat;
  dk_sym : forall i j, (i < nv d)%nat -> In j (fac d i) -> In i (fac d j);
  dk_frac : forall p v pm, pm = 1 \/ pm = -1 -> exists x, frac d p v pm = Ret x }.

(** Sizes of the arrays, symmetric adjacency through common faces. *)
Record wf (d : dim) (m : rmesh) (np : Z) : Prop := {
  w_n : 0 <= r_n m;
  w_elt : r_n m < alen (r_elt m);
  w_adj : Z.of_nat (nv d) * r_n m < alen (r_adja m);
  w_ver : forall k i, elem m k -> (i < nv d)%nat -> 0 <= vtx m k i < np;
  w_nb : forall k j, elem m k -> (j < nv d)%nat -> nbf d m k j <> 0 ->
    elem m (nbf d m k j) /\
    exists j', (j' < nv d)%nat /\ nbf d m (nbf d m k j) j' = k /\
      forall i, In i (fac d j) -> exists i', In i' (fac d j') /\ vtx m (nbf d m k j) i' = vtx m k i }.

(** ** Connection *)

Lemma stepr_sym d m np phi k l : wf d m np -> stepr d m phi k l -> stepr d m phi l k.
Proof.
  intros W (Ek & El & j & i & Hj & En & Hi & Hp).
  destruct (w_nb d m np W k j Ek Hj) as (_ & j' & Hj' & En' & Hv).
  { rewrite En. destruct El as [[? ?] ?]. lia. }
  rewrite En in *. destruct (Hv i Hi) as (i' & Hi' & Ev).
  split; [exact El|]. split; [exact Ek|]. exists j', i'. rewrite Ev. auto.
Qed.

Lemma conn_sym d m np phi k l : wf d m np -> conn d m phi k l -> conn d m phi l k.
Proof.
  intros W H. induction H as [x y H|x|x y z H1 IH1 H2 IH2].
  - apply rt_step. eapply stepr_sym; eauto.
  - apply rt_refl.
  - eapply rt_trans; eauto.
Qed.

Lemma conn_trans d m phi k l j : conn d m phi k l -> conn d m phi l j -> conn d m phi k j.
Proof. apply rt_trans. Qed.

Lemma conn_elem d m phi k l : elem m k -> conn d m phi k l -> elem m l.
Proof. intros H C. induction C as [x y (_ & H' & _)|x|x y z H1 IH1 H2 IH2]; auto. Qed.

Lemma conn_mono d m (phi psi : Z -> Prop) k l : (forall p, phi p -> psi p) -> conn d m phi k l -> conn d m psi k l.
Proof.
  intros H C. induction C as [x y (A & B & j & i & C1 & C2 & C3 & C4)|x|x y z H1 IH1 H2 IH2].
  - apply rt_step. split; [exact A|]. split; [exact B|]. exists j, i. auto.
  - apply rt_refl.
  - eapply rt_trans; eauto.
Qed.

Lemma comp_conn d m np phi k l L : wf d m np -> conn d m phi k l -> comp d m phi k L -> comp d m phi l L.
Proof.
  intros W C (N & H). split; [exact N|]. intros x. rewrite H. split; intros X.
  - eapply conn_trans; [|exact X]. eapply conn_sym; eauto.
  - eapply conn_trans; eauto.
Qed.

Lemma sumQ_app f a b : (sumQ f (a ++ b) == sumQ f a + sumQ f b)%Q.
Proof.
  induction a as [|x a IH].
  - change (sumQ f ([] ++ b)) with (sumQ f b). change (sumQ f []) with 0%Q. rewrite Qplus_0_l. reflexivity.
  - change (sumQ f ((x :: a) ++ b)) with (f x + sumQ f (a ++ b))%Q. change (sumQ f (x :: a)) with (f x + sumQ f a)%Q.
    rewrite IH, Qplus_assoc. reflexivity.
Qed.

Lemma sumQ_ext f g l : (forall x, In x l -> f x == g x)%Q -> (sumQ f l == sumQ g l)%Q.
Proof.
  induction l as [|x l IH]; intros H; [reflexivity|].
  change (sumQ f (x :: l)) with (f x + sumQ f l)%Q. change (sumQ g (x :: l)) with (g x + sumQ g l)%Q.
  rewrite (H x (or_introl eq_refl)), IH by (intros; apply H; right; assumption). reflexivity.
Qed.

Lemma sumQ_perm f a b : Permutation a b -> (sumQ f a == sumQ f b)%Q.
Proof.
  induction 1 as [|x l l' P IH|x y l|l1 l2 l3 P1 IH1 P2 IH2].
  - reflexivity.
  - change (sumQ f (x :: l)) with (f x + sumQ f l)%Q. change (sumQ f (x :: l')) with (f x + sumQ f l')%Q. rewrite IH. reflexivity.
  - change (sumQ f (y :: x :: l)) with (f y + (f x + sumQ f l))%Q. change (sumQ f (x :: y :: l)) with (f x + (f y + sumQ f l))%Q.
    rewrite !Qplus_assoc, (Qplus_comm (f y)). reflexivity.
  - rewrite IH1. exact IH2.
Qed.

Lemma comp_perm d m phi k L L' : comp d m phi k L -> comp d m phi k L' -> Permutation L L'.
Proof. intros (N & H) (N' & H'). apply NoDup_Permutation; auto. intros x. rewrite H, H'. reflexivity. Qed.

Lemma flipped_out pm : pm = 1 \/ pm = -1 -> insideb pm (flipped pm) = false.
Proof. intros [-> | ->]; reflexivity. Qed.

(** ** Reading *)

Lemma rvals_spec d m sol k :
  elem m k -> (forall i, (i < nv d)%nat -> 0 <= vtx m k i < alen sol) ->
  rvals d sol (aget (r_elt m) k) = Ret (evals d m (aget sol) k).
Proof.
  intros E H. unfold rvals, evals.
  destruct (@foldM_inv nat (list Q) (fun pre l => l = map (fun i => aget sol (vtx m k i)) pre)
    (fun i l => x <- rd sol (ver (aget (r_elt m) k) i) ;; Ret (l ++ [x])) (seq 0 (nv d)) []) as (l & El & Hl).
  - reflexivity.
  - intros pre i post l Es ->. rewrite rd_ok.
    + cbn [bind]. eexists. split; [reflexivity|]. rewrite map_app. reflexivity.
    + apply H. assert (In i (seq 0 (nv d))) by (rewrite Es; apply in_elt). apply in_seq in H0. lia.
  - rewrite El, Hl. reflexivity.
Qed.

Section Traverse.
  Variables (d : dim) (m : rmesh) (pm base : Z) (sol : arr Q).
  Hypothesis DK : dim_ok d.
  Hypothesis PM : pm = 1 \/ pm = -1.
  Hypothesis W : wf d m (alen sol).
  Let phi (p : Z) : Prop := inside pm (aget sol p).

  Lemma rd_elt k : elem m k -> rd (r_elt m) k = Ret (aget (r_elt m) k).
  Proof. intros [H _]. apply rd_ok. pose proof (w_elt d m _ W). lia. Qed.

  Lemma rd_adja k j : elem m k -> (j < nv d)%nat ->
    rd (r_adja m) (Z.of_nat (nv d) * (k - 1) + 1 + Z.of_nat j) = Ret (aget (r_adja m) (Z.of_nat (nv d) * (k - 1) + 1 + Z.of_nat j)).
  Proof.
    intros [H _] Hj. apply rd_ok. pose proof (w_adj d m _ W) as A. clear - H Hj A.
    set (n := Z.of_nat (nv d)) in *. assert (Z.of_nat j < n) by lia. assert (n * k <= n * r_n m) by (apply Z.mul_le_mono_nonneg_l; lia).
    assert (0 <= n * (k - 1)) by (apply Z.mul_nonneg_nonneg; lia). lia.
  Qed.

  Section From.
    Variables (k0 : Z) (F : Z -> Prop).
    Hypothesis E0 : elem m k0.
    Hypothesis NF : forall l, conn d m phi k0 l -> ~ F l.

    Definition J (flg : arr Z) (pile : list Z) : Prop :=
      alen flg = r_n m + 1 /\ NoDup pile /\
      (forall l, 1 <= l <= r_n m -> (aget flg l = base <-> F l \/ In l pile)) /\
      (forall l, In l pile -> conn d m phi k0 l) /\ (forall l, aget flg l <= base).

    Lemma J_len flg pile : J flg pile -> Z.of_nat (length pile) <= r_n m.
    Proof.
      intros (_ & N & _ & C & _). pose proof (w_n d m _ W).
      assert (X : Z.of_nat (length (map Z.pred pile)) <= Z.max 0 (r_n m)).
      { apply NoDup_Z_bound.
        - apply FinFun.Injective_map_NoDup; [|exact N]. intros x y E. lia.
        - intros x Hx. apply in_map_iff in Hx. destruct Hx as (y & <- & Hy). apply C in Hy. apply conn_elem in Hy; [|exact E0]. destruct Hy. lia. }
      rewrite map_length in X. lia.
    Qed.

    Lemma see_spec l flg pile : J flg pile -> (l <> 0 -> conn d m phi k0 l) ->
      exists flg' ext, see d m base l (Some (flg, pile)) = Ret (Some (flg', pile ++ ext)) /\ J flg' (pile ++ ext) /\ (l <> 0 -> In l (pile ++ ext)).
    Proof.
      intros HJ HC. unfold see. destruct (Z.eqb_spec l 0) as [->|Nl].
      { exists flg, []. rewrite app_nil_r. split; [reflexivity|]. split; [exact HJ|]. intros X. contradiction. }
      specialize (HC Nl). pose proof (conn_elem _ _ _ _ _ E0 HC) as El. rewrite (rd_elt l El). cbn [bind].
      pose proof HJ as (A & N & B & C & D). destruct El as [Hl Ok].
      rewrite rd_ok by lia. cbn [bind]. rewrite Ok, orb_true_r. cbn [andb].
      destruct (Z.eqb_spec (aget flg l) base) as [Eb|Eb]; cbn [negb].
      - exists flg, []. rewrite app_nil_r. split; [reflexivity|]. split; [exact HJ|]. intros _.
        apply B in Eb; [|exact Hl]. destruct Eb as [X|X]; [exfalso; exact (NF l HC X)|exact X].
      - rewrite wr_ok by lia. cbn [bind].
        assert (Nin : ~ In l pile) by (intros X; apply Eb, B; auto).
        assert (HJ' : J (mkArr (alen flg) (upd (aget flg) l base)) (pile ++ [l])).
        { split; [exact A|]. split.
          - apply (Permutation_NoDup (Permutation_cons_append pile l)). constructor; assumption.
          - split; [|split].
            + intros x Hx. cbn [aget]. rewrite in_app_iff. destruct (Z.eq_dec x l) as [->|Nx].
              * rewrite upd_same. split; [intros _; right; right; left; reflexivity|reflexivity].
              * rewrite upd_other by exact Nx. rewrite B by exact Hx. cbn. split; [tauto|]. intros [X|[X|[X|[]]]]; auto. congruence.
            + intros x Hx. apply in_app_iff in Hx. destruct Hx as [Hx|[<-|[]]]; auto.
            + intros x. cbn [aget]. destruct (Z.eq_dec x l) as [->|Nx]; [rewrite upd_same; lia|]. rewrite upd_other by exact Nx. apply D. }
        pose proof (J_len _ _ HJ') as L'. pose proof (J_len _ _ HJ) as L.
        unfold push. destruct (Z.ltb_spec (Z.of_nat (length pile)) (r_n m + 1)); [|lia]. cbn [bind].
        destruct (Z.ltb_spec (r_n m) (Z.of_nat (length (pile ++ [l])))); [lia|].
        eexists. exists [l]. split; [reflexivity|]. split; [exact HJ'|]. intros _. apply in_app_iff. right. left. reflexivity.
    Qed.

    Lemma scan_spec kk flg pile : In kk pile -> J flg pile ->
      exists flg' ext, scan d m pm base sol kk (aget (r_elt m) kk) (Some (flg, pile)) = Ret (Some (flg', pile ++ ext)) /\
        J flg' (pile ++ ext) /\ (forall l, stepr d m phi kk l -> In l (pile ++ ext)).
    Proof.
      intros Hk HJ. pose proof HJ as (_ & _ & _ & HC & _). specialize (HC kk Hk).
      pose proof (conn_elem _ _ _ _ _ E0 HC) as Ek.
      set (Q := fun (S : nat -> nat -> Prop) (s : option (arr Z * list Z)) => exists flg' ext, s = Some (flg', pile ++ ext) /\ J flg' (pile ++ ext) /\
        forall i j, S i j -> phi (vtx m kk i) -> nbf d m kk j <> 0 -> In (nbf d m kk j) (pile ++ ext)).
      assert (G : exists s, scan d m pm base sol kk (aget (r_elt m) kk) (Some (flg, pile)) = Ret s /\
        Q (fun i j => In i (seq 0 (nv d)) /\ In j (fac d i)) s).
      { unfold scan. apply foldM_inv with (P := fun pre s => Q (fun i j => In i pre /\ In j (fac d i)) s).
        - exists flg, []. rewrite app_nil_r. split; [reflexivity|]. split; [exact HJ|]. intros i j [[] _].
        - intros pre i post s Es HQ.
          assert (Hi : (i < nv d)%nat).
          { assert (X : In i (seq 0 (nv d))) by (rewrite Es; apply in_elt). apply in_seq in X. lia. }
          rewrite rd_ok by (apply (w_ver d m _ W); assumption). cbn [bind].
          change (ver (aget (r_elt m) kk) i) with (vtx m kk i).
          destruct (insideb pm (aget sol (vtx m kk i))) eqn:Ei; cbn [negb].
          + destruct (@foldM_inv nat (option (arr Z * list Z)) (fun pre' s => Q (fun i' j => (In i' pre /\ In j (fac d i')) \/ (i' = i /\ In j pre')) s)
              (fun j s => a <- rd (r_adja m) (Z.of_nat (nv d) * (kk - 1) + 1 + Z.of_nat j) ;; see d m base (a / Z.of_nat (nv d)) s) (fac d i) s) as (s' & Es' & HQ').
            * destruct HQ as (f & e & -> & HJ1 & H1). exists f, e. split; [reflexivity|]. split; [exact HJ1|].
              intros i' j [X|[_ []]] Hp Hn. apply (H1 i' j X Hp Hn).
            * intros pre' j post' s1 Es1 (f & e & -> & HJ1 & H1).
              assert (Hj : In j (fac d i)) by (rewrite Es1; apply in_elt).
              assert (Hj' : (j < nv d)%nat) by (apply (dk_lt d DK i); assumption).
              rewrite rd_adja by assumption. cbn [bind]. fold (nbf d m kk j).
              destruct (see_spec (nbf d m kk j) f (pile ++ e) HJ1) as (f' & e' & Ese & HJ2 & Hin).
              { intros Nz. eapply conn_trans; [exact HC|]. apply rt_step. split; [exact Ek|].
                destruct (w_nb d m _ W kk j Ek Hj' Nz) as [X _]. split; [exact X|]. exists j, i.
                split; [exact Hj'|]. split; [reflexivity|]. split; [apply (dk_sym d DK i); assumption|exact Ei]. }
              rewrite Ese. eexists. split; [reflexivity|]. exists f', (e ++ e'). rewrite app_assoc.
              split; [reflexivity|]. split; [exact HJ2|]. intros i' j2 X Hp Hn.
              assert (Y : (In i' pre /\ In j2 (fac d i') \/ i' = i /\ In j2 pre') \/ (i' = i /\ j2 = j)).
              { destruct X as [X|[X1 X2]]; [left; left; exact X|]. apply in_app_iff in X2. destruct X2 as [X2|[X2|[]]]; auto. }
              destruct Y as [Y|[-> ->]]; [apply in_app_iff; left; apply (H1 i' j2); assumption|apply Hin; exact Hn].
            * rewrite Es'. eexists. split; [reflexivity|].
              destruct HQ' as (f & e & -> & HJ1 & H1). exists f, e. split; [reflexivity|]. split; [exact HJ1|].
              intros i' j [X Y] Hp Hn. apply (H1 i' j); [|exact Hp|exact Hn].
              apply in_app_iff in X. destruct X as [X|[X|[]]]; [left; auto|right; subst; auto].
          + eexists. split; [reflexivity|]. destruct HQ as (f & e & -> & HJ1 & H1). exists f, e. split; [reflexivity|]. split; [exact HJ1|].
            intros i' j [X Y] Hp Hn. apply in_app_iff in X. destruct X as [X|[X|[]]]; [apply (H1 i' j); auto|].
            subst i'. exfalso. unfold phi, inside in Hp. congruence. }
      destruct G as (s & Es & f & e & -> & HJ1 & H1). exists f, e. split; [exact Es|]. split; [exact HJ1|].
      intros l (_ & El & j & i & Hj & En & Hi & Hp). rewrite <- En. apply (H1 i j); [|exact Hp|].
      - split.
        + apply in_seq. split; [lia|]. cbn. apply (dk_lt d DK j); assumption.
        + apply (dk_sym d DK j); assumption.
      - rewrite En. destruct El as [[? ?] ?]. lia.
    Qed.

    Lemma bfs_spec fuel : forall cur volc flg pile,
      J flg pile -> (cur < length pile)%nat -> r_n m <= Z.of_nat fuel + Z.of_nat cur -> In k0 pile ->
      (forall c l, (c < cur)%nat -> stepr d m phi (nth c pile 0) l -> In l pile) ->
      (volc == sumQ (part d m pm (aget sol)) (firstn cur pile))%Q ->
      exists volc' flg' pile', bfs d m pm base sol fuel cur volc flg pile = Ret (Some (volc', flg', pile')) /\
        J flg' pile' /\ comp d m phi k0 pile' /\ (volc' == sumQ (part d m pm (aget sol)) pile')%Q.
    Proof.
      induction fuel as [|fuel IH]; intros cur volc flg pile HJ Hc Hf H0 Hst Hv; cbn [bfs].
      - exfalso. pose proof (J_len _ _ HJ). lia.
      - destruct (nth_error pile cur) as [kk|] eqn:En; [|apply nth_error_None in En; lia].
        pose proof (nth_error_In _ _ En) as Hk.
        assert (Ek : elem m kk) by (eapply conn_elem; [exact E0|]; apply HJ; exact Hk).
        rewrite (rd_elt kk Ek). cbn [bind].
        rewrite (rvals_spec d m sol kk Ek) by (intros i Hi; apply (w_ver d m _ W); assumption). cbn [bind].
        destruct (dk_frac d DK (fun i => r_pos m (vtx m kk i)) (fun i => nth i (evals d m (aget sol) kk) 0%Q) pm PM) as (x & Ex).
        assert (Ep : part d m pm (aget sol) kk = x) by (unfold part; rewrite Ex; reflexivity).
        unfold vtx in Ex at 1. rewrite Ex. cbn [bind].
        destruct (scan_spec kk flg pile Hk HJ) as (flg' & ext & Es & HJ' & Hn). rewrite Es. cbn [bind].
        assert (Hv' : (volc + x == sumQ (part d m pm (aget sol)) (firstn (S cur) (pile ++ ext)))%Q).
        { rewrite firstn_app. replace (S cur - length pile)%nat with 0%nat by lia. rewrite firstn_O, app_nil_r.
          rewrite (firstn_S_nth _ pile cur kk En), sumQ_app, <- Hv, <- Ep. change (sumQ (part d m pm (aget sol)) [kk]) with (part d m pm (aget sol) kk + 0)%Q. rewrite Qplus_0_r. reflexivity. }
        assert (Hst' : forall c l, (c < S cur)%nat -> stepr d m phi (nth c (pile ++ ext) 0) l -> In l (pile ++ ext)).
        { intros c l Hc' Hs. rewrite app_nth1 in Hs by lia. destruct (Nat.eq_dec c cur) as [->|Ne].
          - rewrite (nth_error_nth _ _ 0 En) in Hs. apply Hn. exact Hs.
          - apply in_app_iff. left. apply (Hst c l); [lia|exact Hs]. }
        destruct (Nat.ltb_spec (S cur) (length (pile ++ ext))) as [L|L].
        + apply IH; auto; [clear - Hf; lia|apply in_app_iff; left; exact H0].
        + eexists _, _, _. split; [reflexivity|]. split; [exact HJ'|].
          assert (El : S cur = length (pile ++ ext)) by (rewrite app_length in *; lia).
          split; [|rewrite Hv', El, firstn_all; reflexivity].
          split; [apply HJ'|]. intros l. split; [apply HJ'|]. intros C. apply clos_rt_rt1n_iff in C.
          assert (H0' : In k0 (pile ++ ext)) by (apply in_app_iff; left; exact H0). clear - C H0' Hst' El.
          induction C as [x|x y z S1 C IHC]; [exact H0'|]. apply IHC.
          apply (In_nth _ _ 0) in H0'. destruct H0' as (c & Hc & <-). apply (Hst' c); [lia|exact S1].
    Qed.
  End From.

  (** The vertices of the elements of a list. *)
  Definition tv (pile : list Z) (p : Z) : Prop := exists l i, In l pile /\ (i < nv d)%nat /\ vtx m l i = p.

  Lemma flip_spec pile : (forall l, In l pile -> elem m l) ->
    exists sol', flip d m pm pile sol = Ret sol' /\ alen sol' = alen sol /\
      (forall p, phi p -> tv pile p -> aget sol' p = flipped pm) /\
      (forall p, ~ phi p \/ ~ tv pile p -> aget sol' p = aget sol p).
  Proof.
    intros HE.
    set (K := fun (S : Z -> Prop) (s : arr Q) => alen s = alen sol /\
      (forall p, phi p -> S p -> aget s p = flipped pm) /\ (forall p, ~ phi p \/ ~ S p -> aget s p = aget sol p) /\
      (forall p, aget s p = aget sol p \/ aget s p = flipped pm)).
    assert (G : exists s, flip d m pm pile sol = Ret s /\ K (tv pile) s).
    { unfold flip. apply foldM_inv with (P := fun pre s => K (tv pre) s).
      - split; [reflexivity|]. split; [intros p _ (l & i & [] & _)|]. split; [reflexivity|]. intros p. left. reflexivity.
      - intros pre k post s Es HK. assert (Hk : In k pile) by (rewrite Es; apply in_elt).
        rewrite (rd_elt k (HE k Hk)). cbn [bind].
        destruct (@foldM_inv nat (arr Q) (fun pre' s => K (fun p => tv pre p \/ exists i, In i pre' /\ vtx m k i = p) s)
          (fun i sol => x <- rd sol (ver (aget (r_elt m) k) i) ;;
             if insideb pm x then wr sol (ver (aget (r_elt m) k) i) (flipped pm) else Ret sol) (seq 0 (nv d)) s) as (s' & Es' & HK').
        + destruct HK as (A & B & C & D). split; [exact A|]. split; [|split; [|exact D]].
          * intros p Hp [H|(i & [] & _)]. apply B; assumption.
          * intros p H. apply C. destruct H as [H|H]; [left; exact H|right; intros X; apply H; left; exact X].
        + intros pre' i post' s1 Es1 (A & B & C & D).
          assert (Hi : (i < nv d)%nat).
          { assert (X : In i (seq 0 (nv d))) by (rewrite Es1; apply in_elt). apply in_seq in X. lia. }
          change (ver (aget (r_elt m) k) i) with (vtx m k i). set (q := vtx m k i).
          assert (Hq : 0 <= q < alen s1) by (rewrite A; apply (w_ver d m _ W); auto).
          rewrite rd_ok by exact Hq. cbn [bind].
          destruct (insideb pm (aget s1 q)) eqn:Ei.
          * rewrite wr_ok by exact Hq. eexists. split; [reflexivity|]. split; [exact A|]. cbn [aget]. split; [|split].
            -- intros p Hp HS. destruct (Z.eq_dec p q) as [->|Np]; [apply upd_same|]. rewrite upd_other by exact Np.
               apply B; [exact Hp|]. destruct HS as [HS|(i' & Hi' & <-)]; [left; exact HS|]. apply in_app_iff in Hi'.
               destruct Hi' as [Hi'|[<-|[]]]; [right; eauto|]. exfalso. apply Np. reflexivity.
            -- intros p H. destruct (Z.eq_dec p q) as [->|Np].
               ++ exfalso. destruct H as [H|H].
                  ** apply H. unfold phi, inside. rewrite <- (C q) by (left; exact H). exact Ei.
                  ** apply H. right. exists i. split; [apply in_app_iff; right; left; reflexivity|reflexivity].
               ++ rewrite upd_other by exact Np. apply C. destruct H as [H|H]; [left; exact H|right; intros X; apply H].
                  destruct X as [X|(i' & Hi' & E)]; [left; exact X|right; exists i'; split; [apply in_app_iff; left; exact Hi'|exact E]].
            -- intros p. destruct (Z.eq_dec p q) as [->|Np]; [right; apply upd_same|]. rewrite upd_other by exact Np. apply D.
          * eexists. split; [reflexivity|]. split; [exact A|]. split; [|split; [|exact D]].
            -- intros p Hp HS. destruct HS as [HS|(i' & Hi' & <-)]; [apply B; [exact Hp|left; exact HS]|]. apply in_app_iff in Hi'.
               destruct Hi' as [Hi'|[<-|[]]]; [apply B; [exact Hp|right; eauto]|]. fold q. fold q in Hp.
               destruct (D q) as [X|X]; [|exact X]. exfalso. unfold phi, inside in Hp. congruence.
            -- intros p H. apply C. destruct H as [H|H]; [left; exact H|right; intros X; apply H].
               destruct X as [X|(i' & Hi' & E)]; [left; exact X|right; exists i'; split; [apply in_app_iff; left; exact Hi'|exact E]].
        + rewrite Es'. eexists. split; [reflexivity|]. destruct HK' as (A & B & C & D). split; [exact A|]. split; [|split; [|exact D]].
          * intros p Hp (l & i & Hl & Hi & E). apply B; [exact Hp|]. apply in_app_iff in Hl. destruct Hl as [Hl|[<-|[]]].
            -- left. exists l, i. auto.
            -- right. exists i. split; [apply in_seq; lia|exact E].
          * intros p H. apply C. destruct H as [H|H]; [left; exact H|right; intros X; apply H].
            destruct X as [(l & i & X1 & X2 & X3)|(i & Hi & E)].
            -- exists l, i. split; [apply in_app_iff; left; exact X1|auto].
            -- exists k, i. split; [apply in_app_iff; right; left; reflexivity|]. apply in_seq in Hi. split; [lia|exact E]. }
    destruct G as (s & Es & A & B & C & _). exists s. auto.
  Qed.
End Traverse.

Section Attached.
  Variables (d : dim) (m : rmesh) (pm : Z) (sol : arr Q).
  Hypothesis DK : dim_ok d.
  Hypothesis W : wf d m (alen sol).

  (** A face with a base reference has a vertex on the side [pm]. *)
  Definition on_base (f : Z -> Q) (k : Z) : Prop :=
    exists i j, (i < nv d)%nat /\ ebr (aget (r_elt m) k) i = true /\ In j (fac d i) /\ inside pm (f (vtx m k j)).

  Lemma attached_spec pile : (forall l, In l pile -> elem m l) ->
    exists b, attached d m pm pile sol = Ret b /\ (b = true <-> exists l, In l pile /\ on_base (aget sol) l).
  Proof.
    intros HE. unfold attached.
    apply foldM_inv with (P := fun pre b => b = true <-> exists l, In l pre /\ on_base (aget sol) l).
    - split; [discriminate|]. intros (l & [] & _).
    - intros pre k post b Es HK. assert (Ek : elem m k) by (apply HE; rewrite Es; apply in_elt).
      rewrite (rd_elt d m pm sol W k Ek). cbn [bind].
      destruct (@foldM_inv nat bool (fun pre' b => b = true <-> (exists l, In l pre /\ on_base (aget sol) l) \/
          exists i j, In i pre' /\ ebr (aget (r_elt m) k) i = true /\ In j (fac d i) /\ inside pm (aget sol (vtx m k j)))
        (fun i b => if ebr (aget (r_elt m) k) i then
            foldM (fun j (b : bool) => x <- rd sol (ver (aget (r_elt m) k) j) ;; Ret (b || insideb pm x)) (fac d i) b else Ret b)
        (seq 0 (nv d)) b) as (b' & Eb & Hb).
      + rewrite HK. split; [intros X; left; exact X|]. intros [X|(i & j & [] & _)]. exact X.
      + intros pre' i post' b1 Es1 H1.
        assert (Hi : (i < nv d)%nat).
        { assert (X : In i (seq 0 (nv d))) by (rewrite Es1; apply in_elt). apply in_seq in X. lia. }
        destruct (ebr (aget (r_elt m) k) i) eqn:Ei.
        * destruct (@foldM_inv nat bool (fun pre2 b => b = true <-> b1 = true \/ exists j, In j pre2 /\ inside pm (aget sol (vtx m k j)))
            (fun j (b : bool) => x <- rd sol (ver (aget (r_elt m) k) j) ;; Ret (b || insideb pm x)) (fac d i) b1) as (b2 & Eb2 & Hb2).
          -- split; [tauto|]. intros [X|(j & [] & _)]. exact X.
          -- intros pre2 j post2 b3 Es3 H3. change (ver (aget (r_elt m) k) j) with (vtx m k j).
             rewrite rd_ok.
             ++ cbn [bind]. eexists. split; [reflexivity|]. rewrite orb_true_iff, H3. unfold inside at 2. split.
                ** intros [[X|(j' & X & Y)]|X]; [left; exact X|right; exists j'; split; [apply in_app_iff; left; exact X|exact Y]|].
                   right. exists j. split; [apply in_app_iff; right; left; reflexivity|exact X].
                ** intros [X|(j' & X & Y)]; [left; left; exact X|]. apply in_app_iff in X.
                   destruct X as [X|[<-|[]]]; [left; right; exists j'; auto|right; exact Y].
             ++ apply (w_ver d m _ W); [exact Ek|]. apply (dk_lt d DK i); [exact Hi|]. rewrite Es3. apply in_elt.
          -- rewrite Eb2. eexists. split; [reflexivity|]. rewrite Hb2, H1. split.
             ++ intros [[X|(i' & j & X & Y)]|(j & X & Y)]; [left; exact X| |].
                ** right. exists i', j. split; [apply in_app_iff; left; exact X|exact Y].
                ** right. exists i, j. split; [apply in_app_iff; right; left; reflexivity|auto].
             ++ intros [X|(i' & j & X & Y)]; [left; left; exact X|]. apply in_app_iff in X.
                destruct X as [X|[<-|[]]]; [left; right; exists i', j; auto|]. right. exists j. tauto.
        * eexists. split; [reflexivity|]. rewrite H1. split.
          -- intros [X|(i' & j & X & Y)]; [left; exact X|]. right. exists i', j. split; [apply in_app_iff; left; exact X|exact Y].
          -- intros [X|(i' & j & X & Y)]; [left; exact X|]. apply in_app_iff in X.
             destruct X as [X|[<-|[]]]; [right; exists i', j; auto|]. destruct Y as [Y _]. congruence.
      + rewrite Eb. eexists. split; [reflexivity|]. rewrite Hb. split.
        * intros [(l & X & Y)|(i & j & X & Y)]; [exists l; split; [apply in_app_iff; left; exact X|exact Y]|].
          exists k. split; [apply in_app_iff; right; left; reflexivity|]. exists i, j. apply in_seq in X. split; [lia|exact Y].
        * intros (l & X & Y). apply in_app_iff in X. destruct X as [X|[<-|[]]]; [left; exists l; auto|].
          right. destruct Y as (i & j & A & B). exists i, j. split; [apply in_seq; lia|exact B].
  Qed.
End Attached.

(** ** One pass *)

(** The component of [k] is to be removed: too small, or (second pass, with base references)
    not attached to a base reference. *)
Definition removed (d : dim) (m : rmesh) (pm : Z) (tot : Q) (f : Z -> Q) (k : Z) : Prop :=
  exists L, comp d m (fun p => inside pm (f p)) k L /\
    ((sumQ (part d m pm f) L < r_rmc m * tot)%Q \/
     (r_nbr m = true /\ pm = -1 /\ forall l, In l L -> ~ on_base d m pm f l)).

(** The elements around a vertex are connected through the faces that contain it. *)
Definition balls (d : dim) (m : rmesh) : Prop :=
  forall p k l, touch d m k p -> touch d m l p -> conn d m (eq p) k l.

Section Pass.
  Variables (d : dim) (m : rmesh) (pm base : Z) (tot : Q) (sol0 : arr Q).
  Hypothesis DK : dim_ok d.
  Hypothesis PM : pm = 1 \/ pm = -1.
  Hypothesis W : wf d m (alen sol0).
  Hypothesis BC : balls d m.
  Let phi0 (p : Z) : Prop := inside pm (aget sol0 p).
  Let rem (k : Z) : Prop := removed d m pm tot (aget sol0) k.

  (** Invariant: the flagged elements are a union of components, the values have changed at
      the vertices of the removed ones among them. *)
  Record inv (k : Z) (flg : arr Z) (sol : arr Q) : Prop := {
    v_len : alen flg = r_n m + 1;
    v_le : forall l, aget flg l <= base;
    v_sol : alen sol = alen sol0;
    v_el : forall l, 1 <= l <= r_n m -> aget flg l = base -> elem m l;
    v_cl : forall l l', 1 <= l <= r_n m -> aget flg l = base -> conn d m phi0 l l' -> aget flg l' = base;
    v_out : forall p, ~ phi0 p -> aget sol p = aget sol0 p;
    v_rem : forall p l, phi0 p -> 1 <= l <= r_n m -> aget flg l = base -> touch d m l p -> rem l -> aget sol p = flipped pm;
    v_keep : forall p, (forall l, 1 <= l <= r_n m -> aget flg l = base -> touch d m l p -> ~ rem l) -> aget sol p = aget sol0 p;
    v_done : forall l, elem m l -> l < k -> (exists i, (i < nv d)%nat /\ phi0 (vtx m l i)) -> aget flg l = base }.

  (** An element that is not flagged has its first values. *)
  Lemma fresh k flg sol l : inv k flg sol -> elem m l -> aget flg l <> base ->
    forall i, (i < nv d)%nat -> aget sol (vtx m l i) = aget sol0 (vtx m l i).
  Proof.
    intros I El Nf i Hi. destruct (insideb pm (aget sol0 (vtx m l i))) eqn:E.
    - apply (v_keep _ _ _ I). intros l' Hl' Hf Ht. exfalso. apply Nf.
      apply (v_cl _ _ _ I l' l Hl' Hf). apply (conn_mono d m (eq (vtx m l i))).
      + intros p <-. exact E.
      + apply (BC (vtx m l i)); [exact Ht|]. split; [exact El|]. exists i. auto.
    - apply (v_out _ _ _ I). unfold phi0, inside. congruence.
  Qed.

  (** From such an element the connections for the present and the first values agree. *)
  Lemma fresh_conn k flg sol l l' : inv k flg sol -> elem m l -> aget flg l <> base ->
    (conn d m (fun p => inside pm (aget sol p)) l l' <-> conn d m phi0 l l') /\
    (conn d m phi0 l l' -> aget flg l' <> base).
  Proof.
    intros I El Nf.
    assert (C0 : forall x y, elem m x -> aget flg x <> base -> conn d m phi0 x y -> aget flg y <> base).
    { intros x y Ex Nx C Fy. apply Nx. pose proof (conn_elem _ _ _ _ _ Ex C) as Ey.
      apply (v_cl _ _ _ I y x); [apply Ey|exact Fy|]. eapply conn_sym; eauto. }
    split; [|intros C; exact (C0 l l' El Nf C)].
    split; intros C; apply clos_rt_rt1n_iff in C.
    - induction C as [x|x y z S C IH]; [apply rt_refl|].
      assert (S0 : stepr d m phi0 x y).
      { destruct S as (A & B & j & i & C1 & C2 & C3 & C4). split; [exact A|]. split; [exact B|]. exists j, i.
        unfold phi0. rewrite <- (fresh k flg sol x I El Nf); auto. apply (dk_lt d DK j); assumption. }
      eapply conn_trans; [apply rt_step; exact S0|]. apply IH; [apply S0|]. apply (C0 x y El Nf). apply rt_step. exact S0.
    - induction C as [x|x y z S0 C IH]; [apply rt_refl|].
      assert (S : stepr d m (fun p => inside pm (aget sol p)) x y).
      { destruct S0 as (A & B & j & i & C1 & C2 & C3 & C4). split; [exact A|]. split; [exact B|]. exists j, i.
        rewrite (fresh k flg sol x I El Nf); auto. apply (dk_lt d DK j); assumption. }
      eapply conn_trans; [apply rt_step; exact S|]. apply IH; [apply S0|]. apply (C0 x y El Nf). apply rt_step. exact S0.
  Qed.

  Lemma evals_ext f g k : (forall i, (i < nv d)%nat -> f (vtx m k i) = g (vtx m k i)) -> evals d m f k = evals d m g k.
  Proof. intros H. unfold evals. apply map_ext_in. intros i Hi. apply in_seq in Hi. apply H. lia. Qed.

  Lemma part_ext f g k : (forall i, (i < nv d)%nat -> f (vtx m k i) = g (vtx m k i)) -> part d m pm f k = part d m pm g k.
  Proof. intros H. unfold part. rewrite (evals_ext f g k H). reflexivity. Qed.

  Lemma on_base_ext f g k : (forall i, (i < nv d)%nat -> f (vtx m k i) = g (vtx m k i)) -> on_base d m pm f k -> on_base d m pm g k.
  Proof.
    intros H (i & j & A & B & C & D). exists i, j. rewrite <- H; auto. apply (dk_lt d DK i); assumption.
  Qed.

  Lemma rem_conn k l : conn d m phi0 k l -> rem k -> rem l.
  Proof. intros C (L & HL & H). exists L. split; [|exact H]. eapply comp_conn; eauto. Qed.

  (** The decision taken for a component. *)
  Lemma rem_iff k L : comp d m phi0 k L ->
    (rem k <-> (sumQ (part d m pm (aget sol0)) L < r_rmc m * tot)%Q \/ (r_nbr m = true /\ pm = -1 /\ forall l, In l L -> ~ on_base d m pm (aget sol0) l)).
  Proof.
    intros HL. split; [|intros H; exists L; auto]. intros (L' & HL' & [H|(A & B & H)]).
    - left. rewrite (sumQ_perm _ L L') by (eapply comp_perm; eauto). exact H.
    - right. split; [exact A|]. split; [exact B|]. intros l Hl. apply H. apply HL', HL, Hl.
  Qed.

  Lemma pass_step_spec k flg sol nc : 1 <= k <= r_n m -> inv k flg sol ->
    exists flg' sol' nc', pass_step d m pm base tot k (Some (flg, sol, nc)) = Ret (Some (flg', sol', nc')) /\ inv (k + 1) flg' sol'.
  Proof.
    intros Hk I. unfold pass_step. rewrite rd_ok by (pose proof (w_elt d m _ W); lia). cbn [bind].
    assert (Next : (elem m k -> (exists i, (i < nv d)%nat /\ phi0 (vtx m k i)) -> aget flg k = base) -> inv (k + 1) flg sol).
    { intros H. destruct I as [i1 i9 i2 i3 i4 i5 i6 i7 i8]. constructor; auto. intros l El Hl Hi.
      destruct (Z.eq_dec l k) as [->|Nl]; [auto|]. apply i8; auto. lia. }
    destruct (eok (aget (r_elt m) k)) eqn:Ok; cbn [negb].
    2: { exists flg, sol, nc. split; [reflexivity|]. apply Next. intros [_ X]. congruence. }
    assert (Ek : elem m k) by (split; assumption).
    rewrite rd_ok by (rewrite (v_len _ _ _ I); lia). cbn [bind].
    destruct (Z.eqb_spec (aget flg k) base) as [Eb|Nb].
    { exists flg, sol, nc. split; [reflexivity|]. apply Next. auto. }
    assert (W' : wf d m (alen sol)) by (rewrite (v_sol _ _ _ I); exact W).
    rewrite (rvals_spec d m sol k Ek) by (intros i Hi; apply (w_ver d m _ W'); assumption). cbn [bind].
    destruct (existsb (insideb pm) (evals d m (aget sol) k)) eqn:Ex; cbn [negb].
    2: { exists flg, sol, nc. split; [reflexivity|]. apply Next. intros _ (i & Hi & Hp). exfalso.
         assert (X : existsb (insideb pm) (evals d m (aget sol) k) = true); [|congruence].
         apply existsb_exists. exists (aget sol (vtx m k i)). split.
         - unfold evals. apply in_map_iff. exists i. split; [reflexivity|]. apply in_seq. lia.
         - rewrite (fresh k flg sol k I Ek Nb i Hi). exact Hp. }
    clear Next. rewrite wr_ok by (rewrite (v_len _ _ _ I); lia). cbn [bind].
    unfold push at 1. cbn [length]. destruct (Z.ltb_spec (Z.of_nat 0) (r_n m + 1)); [|lia]. cbn [bind app length].
    destruct (Z.ltb_spec (r_n m) (Z.of_nat 1)); [lia|].
    set (flg1 := mkArr (alen flg) (upd (aget flg) k base)).
    set (phi := fun p => inside pm (aget sol p)).
    assert (CE : forall l, conn d m phi k l <-> conn d m phi0 k l) by (intros l; apply (fresh_conn k flg sol k l I Ek Nb)).
    assert (CN : forall l, conn d m phi0 k l -> aget flg l <> base) by (intros l; apply (fresh_conn k flg sol k l I Ek Nb)).
    destruct (bfs_spec d m pm base sol DK PM W' k (fun l => aget flg l = base) Ek) with (fuel := Z.to_nat (r_n m)) (cur := 0%nat) (volc := 0%Q) (flg := flg1) (pile := [k])
      as (volc & flg' & pile & Eb & HJ & HC & HV).
    - intros l C. apply CN, CE, C.
    - split; [exact (v_len _ _ _ I)|]. split; [constructor; [intros []|constructor]|]. split.
      + intros l Hl. unfold flg1. cbn [aget]. destruct (Z.eq_dec l k) as [->|Nl].
        * rewrite upd_same. split; [intros _; right; left; reflexivity|reflexivity].
        * rewrite upd_other by exact Nl. cbn. split; [tauto|]. intros [X|[X|[]]]; [exact X|congruence].
      + split; [intros l [<-|[]]; apply rt_refl|]. intros l. unfold flg1. cbn [aget].
        destruct (Z.eq_dec l k) as [->|Nl]; [rewrite upd_same; lia|]. rewrite upd_other by exact Nl. apply (v_le _ _ _ I).
    - cbn. lia.
    - cbn. lia.
    - left. reflexivity.
    - intros c l Hc. lia.
    - reflexivity.
    - rewrite Eb. cbn [bind]. destruct HJ as (F1 & F2 & F3 & F4 & F5).
      assert (HC0 : comp d m phi0 k pile).
      { split; [exact F2|]. intros l. rewrite <- CE. apply HC. }
      assert (PE : forall l, In l pile -> elem m l) by (intros l Hl; apply (conn_elem d m phi k); [exact Ek|apply F4; exact Hl]).
      assert (PS : forall l, In l pile -> forall i, (i < nv d)%nat -> aget sol (vtx m l i) = aget sol0 (vtx m l i)).
      { intros l Hl. apply (fresh k flg sol l I (PE l Hl)). apply CN, HC0, Hl. }
      assert (PT : forall p, tv d m pile p -> aget sol p = aget sol0 p).
      { intros p (l & i & Hl & Hi & <-). apply PS; assumption. }
      assert (HV0 : (volc == sumQ (part d m pm (aget sol0)) pile)%Q).
      { rewrite HV. apply sumQ_ext. intros l Hl. rewrite (part_ext (aget sol) (aget sol0) l (PS l Hl)). reflexivity. }
      pose proof (rem_iff k pile HC0) as RI.
      (* the last state satisfies the invariant *)
      assert (Fin : forall sol', alen sol' = alen sol ->
        (rem k -> (forall p, phi p -> tv d m pile p -> aget sol' p = flipped pm) /\ (forall p, ~ phi p \/ ~ tv d m pile p -> aget sol' p = aget sol p)) ->
        (~ rem k -> forall p, aget sol' p = aget sol p) ->
        (rem k \/ ~ rem k) -> inv (k + 1) flg' sol').
      { intros sol' L' HR HN Dec.
        assert (InP : forall l, 1 <= l <= r_n m -> aget flg' l = base -> aget flg l = base \/ In l pile) by (intros l Hl; apply F3; exact Hl).
        assert (Rp : forall l, In l pile -> (rem l <-> rem k)).
        { intros l Hl. assert (C : conn d m phi0 k l) by (apply HC0; exact Hl). split; apply rem_conn; [eapply conn_sym; eauto|exact C]. }
        constructor.
        - exact F1.
        - exact F5.
        - rewrite L'. apply (v_sol _ _ _ I).
        - intros l Hl Hb. destruct (InP l Hl Hb) as [X|X]; [exact (v_el _ _ _ I l Hl X)|exact (PE l X)].
        - intros l l' Hl Hb C. pose proof (InP l Hl Hb) as X.
          assert (El : elem m l) by (destruct X as [X|X]; [exact (v_el _ _ _ I l Hl X)|exact (PE l X)]).
          pose proof (conn_elem _ _ _ _ _ El C) as El'. apply F3; [apply El'|].
          destruct X as [X|X]; [left; exact (v_cl _ _ _ I l l' Hl X C)|right].
          apply HC0. eapply conn_trans; [apply HC0; exact X|exact C].
        - intros p Hp. rewrite <- (v_out _ _ _ I p Hp). destruct Dec as [R|R]; [|apply HN; exact R].
          apply HR; [exact R|]. left. unfold phi. rewrite (v_out _ _ _ I p Hp). exact Hp.
        - intros p l Hp Hl Hb Ht Hr. destruct (InP l Hl Hb) as [X|X].
          + pose proof (v_rem _ _ _ I p l Hp Hl X Ht Hr) as E. destruct Dec as [R|R]; [|rewrite (HN R); exact E].
            rewrite <- E. apply HR; [exact R|]. left. unfold phi, inside. rewrite E. rewrite (flipped_out pm PM). discriminate.
          + assert (T : tv d m pile p) by (destruct Ht as (_ & i & Hi & E); exists l, i; auto).
            destruct HR as [HR _]; [apply (Rp l X); exact Hr|]. apply HR; [|exact T]. unfold phi. rewrite (PT p T). exact Hp.
        - intros p Hp. destruct Dec as [R|R].
          + assert (NT : ~ tv d m pile p).
            { intros (l & i & Hl & Hi & E). apply (Hp l); [apply (PE l Hl)|apply F3; [apply (PE l Hl)|right; exact Hl]| |].
              - split; [exact (PE l Hl)|]. exists i. auto.
              - apply (Rp l Hl). exact R. }
            destruct (HR R) as [_ HR']. rewrite HR' by (right; exact NT). apply (v_keep _ _ _ I).
            intros l Hl Hb. apply Hp; [exact Hl|]. apply F3; [exact Hl|left; exact Hb].
          + rewrite (HN R). apply (v_keep _ _ _ I). intros l Hl Hb. apply Hp; [exact Hl|]. apply F3; [exact Hl|left; exact Hb].
        - intros l El Hl Hi. apply F3; [apply El|]. destruct (Z.eq_dec l k) as [->|Nl].
          + right. apply HC0. apply rt_refl.
          + left. apply (v_done _ _ _ I); auto. lia. }
      destruct (flip_spec d m pm sol W' pile PE) as (sol1 & E1 & L1 & A1 & B1).
      destruct (Qltb_spec volc (r_rmc m * tot)) as [[-> Q]|[-> Q]].
      + rewrite E1. cbn [bind].
        assert (R : rem k) by (apply RI; left; rewrite <- HV0; exact Q).
        destruct (r_nbr m && (pm =? -1)).
        * assert (W1 : wf d m (alen sol1)) by (rewrite L1; exact W').
          destruct (attached_spec d m pm sol1 DK W1 pile PE) as (b & Ea & _). rewrite Ea. cbn [bind].
          destruct b; [eexists _, _, _; split; [reflexivity|]; apply Fin; auto; intros X; contradiction|].
          destruct (flip_spec d m pm sol1 W1 pile PE) as (sol2 & E2 & L2 & A2 & B2). rewrite E2. cbn [bind].
          eexists _, _, _. split; [reflexivity|]. apply Fin; [congruence| |intros X; contradiction|left; exact R].
          intros _. split.
          -- intros p Hp Ht. rewrite B2; [apply A1; assumption|]. left. unfold inside. rewrite (A1 p Hp Ht), (flipped_out pm PM). discriminate.
          -- intros p Hn. rewrite B2; [apply B1; exact Hn|]. rewrite (B1 p Hn). exact Hn.
        * eexists _, _, _. split; [reflexivity|]. apply Fin; auto; intros X; contradiction.
      + cbn [bind].
        assert (NS : ~ (sumQ (part d m pm (aget sol0)) pile < r_rmc m * tot)%Q) by (rewrite <- HV0; apply Qle_not_lt; exact Q).
        destruct (r_nbr m) eqn:En; [destruct (Z.eqb_spec pm (-1)) as [Ep|Np]|]; cbn [andb].
        * destruct (attached_spec d m pm sol DK W' pile PE) as (b & Ea & Hb). rewrite Ea. cbn [bind].
          destruct b.
          -- assert (NR : ~ rem k).
             { intros R. apply RI in R. destruct R as [R|(_ & _ & R)]; [exact (NS R)|].
               destruct (proj1 Hb eq_refl) as (l & Hl & Ho). apply (R l Hl). apply (on_base_ext (aget sol)); [apply PS; exact Hl|exact Ho]. }
             eexists _, _, _. split; [reflexivity|]. apply Fin; auto; intros X; contradiction.
          -- assert (R : rem k).
             { apply RI. right. split; [reflexivity|]. split; [exact Ep|]. intros l Hl Ho.
               assert (X : false = true); [|discriminate]. apply Hb. exists l. split; [exact Hl|].
               apply (on_base_ext (aget sol0)); [|exact Ho]. intros i Hi. symmetry. apply PS; assumption. }
             rewrite E1. cbn [bind]. eexists _, _, _. split; [reflexivity|]. apply Fin; auto; intros X; contradiction.
        * eexists _, _, _. split; [reflexivity|].
          assert (NR : ~ rem k) by (intros R; apply RI in R; destruct R as [R|(_ & X & _)]; [exact (NS R)|contradiction]).
          apply Fin; auto; intros X; contradiction.
        * eexists _, _, _. split; [reflexivity|].
          assert (NR : ~ rem k) by (intros R; apply RI in R; destruct R as [R|(X & _)]; [exact (NS R)|discriminate]).
          apply Fin; auto; intros X; contradiction.
  Qed.

  Lemma pass_spec flg : alen flg = r_n m + 1 -> (forall l, aget flg l < base) ->
    exists flg' sol' nc, pass d m pm base tot flg sol0 = Ret (Some (flg', sol', nc)) /\ inv (r_n m + 1) flg' sol'.
  Proof.
    intros L N0. assert (N : forall l, 1 <= l <= r_n m -> aget flg l <> base) by (intros l _; specialize (N0 l); lia). unfold pass. pose proof (w_n d m _ W).
    destruct (@for_range_inv _ (fun k s => exists flg' sol' nc, s = Some (flg', sol', nc) /\ inv k flg' sol') (pass_step d m pm base tot) 1 (r_n m) (Some (flg, sol0, 0)))
      as (s & Es & flg' & sol' & nc & -> & I).
    - lia.
    - exists flg, sol0, 0. split; [reflexivity|]. constructor; auto.
      + intros l. specialize (N0 l). lia.
      + intros l Hl X; exfalso; exact (N l Hl X).
      + intros l l' Hl X. exfalso. exact (N l Hl X).
      + intros p l _ Hl X. exfalso. exact (N l Hl X).
      + intros l [Hl _] X. lia.
    - intros k s Hk (flg' & sol' & nc & -> & I).
      destruct (pass_step_spec k flg' sol' nc Hk I) as (f & s' & n & E & I'). rewrite E. eexists. split; [reflexivity|]. eauto.
    - exists flg', sol', nc. auto.
  Qed.

  (** The values after a pass. *)
  Lemma inv_result flg sol : inv (r_n m + 1) flg sol ->
    (forall p, ~ phi0 p -> aget sol p = aget sol0 p) /\
    (forall p, (forall k, ~ touch d m k p) -> aget sol p = aget sol0 p) /\
    (forall p k, phi0 p -> touch d m k p -> rem k -> aget sol p = flipped pm) /\
    (forall p k, phi0 p -> touch d m k p -> ~ rem k -> aget sol p = aget sol0 p).
  Proof.
    intros I. split; [apply (v_out _ _ _ I)|]. split; [|split].
    - intros p H. apply (v_keep _ _ _ I). intros l _ _ T. exfalso. exact (H l T).
    - intros p k Hp T R. pose proof T as (Ek & i & Hi & E). apply (v_rem _ _ _ I p k Hp); auto; [apply Ek|].
      apply (v_done _ _ _ I); [exact Ek|destruct Ek; lia|]. exists i. rewrite E. auto.
    - intros p k Hp T NR. apply (v_keep _ _ _ I). intros l Hl Hb T' R. apply NR.
      apply (rem_conn l k); [|exact R]. apply (conn_mono d m (eq p)); [intros q <-; exact Hp|]. apply BC; assumption.
  Qed.
End Pass.
