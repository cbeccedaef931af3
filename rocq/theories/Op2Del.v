(** Deletion of a triangle, and the links made by a collapse. *)
From Coq Require Import ZArith List Lia Bool.
From Verif Require Import CBase Op2Model Op2Spec Op2Proofs Op2Split Op2Split2 Op2Col.
Import ListNotations.
Open Scope Z_scope.

(** ** [MMG2D_delElt] *)
Lemma shrink_ok : forall fuel m, 0 <= m_nt m < alen (m_tri m) -> (forall x, live m x -> x <= m_nt m) ->
  exists n, shrink_nt m fuel = Ret (p_nt m n) /\ 0 <= n <= m_nt m /\ (forall x, live m x -> x <= n).
Proof.
  induction fuel as [|f IH]; intros m B L; cbn [shrink_nt].
  - exists (m_nt m). split; [destruct m; reflexivity|]. split; [lia|exact L].
  - unfold get_t. rewrite rd_ok by exact B. cbn [bind]. destruct (negb (MG_EOK (aget (m_tri m) (m_nt m))) && negb (m_nt m =? 0)) eqn:E.
    + apply andb_true_iff in E. destruct E as [E1 E2]. apply negb_true_iff in E1, E2. apply Z.eqb_neq in E2. unfold MG_EOK in E1. apply Z.ltb_ge in E1.
      destruct (IH (p_nt m (m_nt m - 1))) as (n & En & Bn & Ln).
      * cbn. lia.
      * intros x Lx. change (live m x) in Lx. cbn. specialize (L x Lx). destruct (Z.eq_dec x (m_nt m)) as [->|]; [|lia]. destruct Lx. lia.
      * exists n. split; [rewrite En; reflexivity|]. cbn in Bn. split; [lia|exact Ln].
    + exists (m_nt m). split; [destruct m; reflexivity|]. split; [lia|exact L].
Qed.

Lemma delElt_ok m e : tables_ok m -> live m e ->
  exists m', delElt m e = Ret (1, m') /\ tables_ok m' /\ m_ptag m' = m_ptag m /\
  (forall x, live m' x <-> live m x /\ x <> e) /\
  (forall x y, x <> e -> vtx m' x y = vtx m x y /\ tag m' x y = tag m x y /\ edg m' x y = edg m x y) /\
  (forall x y, x <> e -> loc y -> nb m' x y = nb m x y).
Proof.
  intros HT Le. pose proof (live_intab m e HT Le) as Ie. pose proof HT as (A & B & C & D & E & (fl & Ch) & G).
  pose proof l0 as L0. pose proof l1 as L1. pose proof l2 as L2.
  unfold delElt. rewrite get_t_ok by exact Ie. cbn [bind].
  assert (MG_EOK (aget (m_tri m) e) = true) as -> by (unfold MG_EOK; apply Z.ltb_lt; apply Le). cbn [negb].
  rewrite set_t_ok by exact Ie. cbn [bind]. set (ma := p_tri m _).
  assert (Fa : same_frame m ma) by (repeat split).
  rewrite set_adj_ok by (assumption || (eapply intab_frame; [|exact Ie]; exact Fa)). cbn [bind].
  rewrite set_adj_ok by (assumption || (eapply intab_frame; [|exact Ie]; eapply same_trans; [exact Fa|frames])). cbn [bind].
  rewrite set_adj_ok by (assumption || (eapply intab_frame; [|exact Ie]; eapply same_trans; [exact Fa|frames])). cbn [bind].
  set (mb := pa (pa (pa ma e 0 0) e 1 0) e 2 0).
  set (mc := p_nil mb e).
  assert (Lc : forall x, live mc x <-> live m x /\ x <> e).
  { intros x. unfold live, mc, mb, ma, pa. cbn [m_tri p_nil p_adjs p_tri alen aget]. unfold upd. destruct (Z.eqb_spec x e) as [->|N].
    - cbn. split; [lia|intros [_ X]; contradiction].
    - tauto. }
  assert (Vc : forall x y, x <> e -> vtx mc x y = vtx m x y /\ tag mc x y = tag m x y /\ edg mc x y = edg m x y).
  { intros x y N. unfold vtx, tag, edg, mc, mb, ma, pa. cbn [m_tri p_nil p_adjs p_tri aget]. rewrite upd_other by exact N. auto. }
  assert (Nc : forall x y, x <> e -> loc y -> nb mc x y = nb m x y).
  { intros x y N Ly. change (nb mc x y) with (nb mb x y). unfold mb. rewrite !nb_pa by assumption. rewrite !at2_k by exact N. reflexivity. }
  assert (Ve : vtx mc e 2 = m_nil m).
  { unfold vtx, mc, mb, ma, pa. cbn [m_tri p_nil p_adjs p_tri aget]. rewrite upd_same. reflexivity. }
  assert (Tc : tables_ok mc).
  { unfold tables_ok. change (alen (m_tri mc)) with (alen (m_tri m)). change (alen (m_adj mc)) with (alen (m_adj m)).
    change (m_nt mc) with (m_nt m). change (m_ntmax mc) with (m_ntmax m). change (m_gaps mc) with (m_gaps m). change (m_nil mc) with e.
    pose proof (E e Le) as Be. repeat split; try assumption; try apply C.
    - destruct (Vc (m_ntmax m) 2) as [-> _]; [lia|exact D].
    - intros x Lx. apply Lc in Lx. apply E, Lx.
    - assert (NI : ~ In e fl).
      { clear - Ch Le. induction Ch as [|k l B N I Ch IH]; [intros []|]. intros [->|H]; [contradiction|exact (IH H)]. }
      exists (e :: fl). constructor; [cbn; unfold intab in Ie; lia|intros X; apply Lc in X; destruct X; contradiction|exact NI|].
      rewrite Ve. apply (chain_frame2 m mc); [cbn; lia|intros x X; apply Lc, X|exact Ch|].
      intros x Hx. apply Vc. intros ->. contradiction. }
  change (m_nt mc) with (m_nt m).
  assert (R : exists n, (if e =? m_nt m then shrink_nt mc (S (Z.to_nat (m_nt m))) else Ret mc) = Ret (p_nt mc n) /\ 0 <= n <= m_nt m /\ (forall x, live mc x -> x <= n)).
  { destruct (Z.eqb_spec e (m_nt m)).
    - apply (shrink_ok (S (Z.to_nat (m_nt m))) mc); [cbn; lia|]. intros x Lx. apply Tc, Lx.
    - exists (m_nt m). split; [reflexivity|]. split; [lia|]. intros x Lx. apply Tc, Lx. }
  destruct R as (n & -> & Bn & Ln). cbn [bind]. exists (p_nt mc n). split; [reflexivity|].
  split; [|split; [reflexivity|split; [exact Lc|split; [exact Vc|exact Nc]]]].
  destruct Tc as (T1 & T2 & T3 & T4 & T5 & (fl' & T6) & T7). split; [exact T1|]. split; [exact T2|]. split; [cbn; lia|]. split; [exact T4|].
  split; [exact Ln|]. split; [|exact T7]. exists fl'. apply (chain_frame2 mc (p_nt mc n)); [cbn; lia|auto|exact T6|reflexivity].
Qed.

(** ** The link between the neighbour of a deleted triangle and a ball triangle *)
Lemma col_link_run s iel i1 jel j : intab s iel -> loc i1 -> intab s jel -> loc j ->
  (nb s iel i1 = 0 \/ (intab s (nb s iel i1 / 3) /\ ~ (nb s iel i1 / 3 = jel /\ nb s iel i1 mod 3 = j))) ->
  exists s', col_link s iel i1 jel j = Ret s' /\ same_frame s s' /\
  (forall x y, vtx s' x y = vtx s x y) /\
  (forall x y, 1 <= x -> loc y -> nb s' x y = if at2 jel j x y then nb s iel i1 else if nb s iel i1 =? 3 * x + y then 3 * jel + j else nb s x y) /\
  (forall x y, 1 <= x -> loc y -> tag s' x y =
     if at2 jel j x y then Z.lor (tag s jel j) (tag s iel i1)
     else if nb s iel i1 =? 3 * x + y then Z.lor (tag s x y) (Z.lor (tag s jel j) (tag s iel i1)) else tag s x y) /\
  (forall x y, 1 <= x -> loc y -> edg s' x y =
     if at2 jel j x y then Z.max (edg s jel j) (edg s iel i1)
     else if nb s iel i1 =? 3 * x + y then Z.max (Z.max (edg s jel j) (edg s iel i1)) (edg s x y) else edg s x y).
Proof.
  intros Ii Li Ij Lj HK. set (a := nb s iel i1) in *. unfold col_link.
  rewrite get_t_ok by exact Ii. cbn [bind]. rewrite get_t_ok by exact Ij. cbn [bind].
  rewrite set_tag_ok by exact Ij. cbn [bind]. rewrite set_edg_ok by intabs. cbn [bind].
  rewrite get_adj_ok by (assumption || intabs). cbn [bind]. rewrite nb_ped, nb_ptg. fold a.
  change (ttag (aget (m_tri s) jel) j) with (tag s jel j). change (ttag (aget (m_tri s) iel) i1) with (tag s iel i1).
  change (tedg (aget (m_tri s) jel) j) with (edg s jel j). change (tedg (aget (m_tri s) iel) i1) with (edg s iel i1).
  set (T := Z.lor (tag s jel j) (tag s iel i1)). set (G := Z.max (edg s jel j) (edg s iel i1)).
  destruct (Z.eqb_spec a 0) as [E|N]; cbn [negb].
  - rewrite set_adj_ok by (assumption || intabs). eexists. split; [reflexivity|]. split; [frames|]. rewrite E.
    assert (Z0 : forall x y, 1 <= x -> loc y -> 0 =? 3 * x + y = false) by (intros x y Hx Ly; apply Z.eqb_neq, not_eq_sym, enc_pos1; assumption).
    split; [intros; views; reflexivity|]. split; [|split]; intros x y Hx Ly; rewrite Z0 by assumption; views; reflexivity.
  - destruct HK as [HK|[Ik NK]]; [contradiction|]. pose proof (loc_mod a) as Lm.
    rewrite set_adj_ok by (assumption || intabs). cbn [bind]. rewrite set_adj_ok by (assumption || intabs). cbn [bind].
    rewrite get_t_ok by intabs. cbn [bind]. rewrite get_t_ok by intabs. cbn [bind].
    rewrite set_tag_ok by intabs. cbn [bind]. rewrite set_edg_ok by intabs.
    eexists. split; [reflexivity|]. split; [frames|].
    repeat match goal with |- context [ttag (aget (m_tri ?mm) ?x) ?y] => change (ttag (aget (m_tri mm) x) y) with (tag mm x y) end.
    repeat match goal with |- context [tedg (aget (m_tri ?mm) ?x) ?y] => change (tedg (aget (m_tri mm) x) y) with (edg mm x y) end.
    assert (DM : 3 * (a / 3) + a mod 3 = a) by (symmetry; apply Z.div_mod; lia).
    assert (ME : forall x y, 1 <= x -> loc y -> (a =? 3 * x + y) = at2 (a / 3) (a mod 3) x y).
    { intros x y Hx Ly. rewrite <- at_enc by assumption. assert (a / 3 =? 0 = false) as ->; [|reflexivity].
      apply Z.eqb_neq. unfold intab in Ik. lia. }
    split; [intros; views; reflexivity|]. split; [|split]; intros x y Hx Ly; rewrite ME by assumption; views; rewrite ?DM.
    + reflexivity.
    + rewrite at2_same. rewrite (at2_dec_false jel j) by exact NK.
      destruct (at2_dec (a / 3) (a mod 3) x y) as [(-> & -> & ->)|(_ & ->)]; [|reflexivity].
      rewrite at2_dec_false by exact NK. reflexivity.
    + rewrite at2_same. rewrite (at2_dec_false jel j) by exact NK.
      destruct (at2_dec (a / 3) (a mod 3) x y) as [(-> & -> & ->)|(_ & ->)]; [|reflexivity].
      rewrite at2_dec_false by exact NK. reflexivity.
Qed.

(** ** The loop that moves the vertex *)
Lemma lget_ok l n : 0 <= n < Z.of_nat (length l) -> exists e, lget l n = Ret e /\ nth_error l (Z.to_nat n) = Some e /\ In e l.
Proof.
  intros B. unfold lget. destruct (Z.ltb_spec n 0); [lia|].
  destruct (nth_error l (Z.to_nat n)) as [e|] eqn:E; [exists e; eauto using nth_error_In|].
  apply nth_error_None in E. lia.
Qed.

Lemma move_loop m l p2 hi : 0 <= hi < Z.of_nat (length l) -> (forall e, In e l -> intab m (e / 3)) ->
  exists s, for_range 1 hi (fun k m => x <- lget l k ;; set_v m (x / 3) (x mod 3) p2) m = Ret s /\ same_frame m s /\
  (forall x y, tag s x y = tag m x y /\ edg s x y = edg m x y /\ nb s x y = nb m x y) /\
  (forall x y, loc y -> (exists t, 1 <= t <= hi /\ nth_error l (Z.to_nat t) = Some (3 * x + y)) -> vtx s x y = p2) /\
  (forall x y, loc y -> (forall t, 1 <= t <= hi -> nth_error l (Z.to_nat t) <> Some (3 * x + y)) -> vtx s x y = vtx m x y) /\
  (forall x y, vtx s x y = vtx m x y \/ vtx s x y = p2).
Proof.
  intros Hh HI.
  destruct (@for_range_inv mesh (fun c s => same_frame m s /\
    (forall x y, tag s x y = tag m x y /\ edg s x y = edg m x y /\ nb s x y = nb m x y) /\
    (forall x y, loc y -> (exists t, 1 <= t <= c - 1 /\ nth_error l (Z.to_nat t) = Some (3 * x + y)) -> vtx s x y = p2) /\
    (forall x y, loc y -> (forall t, 1 <= t <= c - 1 -> nth_error l (Z.to_nat t) <> Some (3 * x + y)) -> vtx s x y = vtx m x y) /\
    (forall x y, vtx s x y = vtx m x y \/ vtx s x y = p2))
    (fun k m => x <- lget l k ;; set_v m (x / 3) (x mod 3) p2) 1 hi m) as (s & Es & P).
  - lia.
  - split; [apply same_refl|]. split; [auto|]. split; [intros x y _ (t & Ht & _); lia|]. split; auto.
  - intros c s Hc (F & TG & V1 & V2 & V3). destruct (lget_ok l c) as (e & -> & Ne & Ie); [lia|]. cbn [bind].
    assert (Is : intab s (e / 3)) by (eapply intab_frame; [exact F|apply HI, Ie]).
    exists (pv s (e / 3) (e mod 3) p2). split; [apply set_v_ok, Is|].
    assert (DM : e = 3 * (e / 3) + e mod 3) by (apply Z.div_mod; lia).
    split; [eapply same_trans; [exact F|apply same_pv]|]. split; [|split; [|split]].
    + intros x y. rewrite tag_pv, edg_pv, nb_pv. apply TG.
    + intros x y Ly (t & Ht & Et). rewrite vtx_pv. destruct (at2_dec (e / 3) (e mod 3) x y) as [(-> & -> & ->)|(N & ->)]; [reflexivity|].
      apply V1; [exact Ly|]. exists t. split; [|exact Et]. destruct (Z.eq_dec t c) as [->|]; [|lia]. exfalso. apply N.
      rewrite Ne in Et. injection Et as Et. rewrite DM in Et. apply enc_dec in Et; [|apply loc_mod|exact Ly]. destruct Et; auto.
    + intros x y Ly H. rewrite vtx_pv. rewrite at2_dec_false.
      * apply V2; [exact Ly|]. intros t Ht. apply H. lia.
      * intros [-> ->]. apply (H c); [lia|]. rewrite Ne, <- DM. reflexivity.
    + intros x y. rewrite vtx_pv. destruct (at2 (e / 3) (e mod 3) x y); auto.
  - exists s. split; [exact Es|]. replace (hi + 1 - 1) with hi in P by lia. exact P.
Qed.
