(** Writes in a tetrahedral mesh, and the pool of tetrahedra. *)
From Coq Require Import ZArith List Lia Bool.
From Verif Require Import CBase Tet3Model Tet3Spec Tet3Proofs.
Import ListNotations.
Open Scope Z_scope.

(** ** Pure versions of the writes *)

Definition pv (m : mesh) (k i x : Z) : mesh :=
  let t := aget (m_tet m) k in
  p_tet m (mkArr (alen (m_tet m)) (upd (aget (m_tet m)) k (mkTet (upd (qv t) i x) (qref t) (qtag t) (qxt t) (qflag t)))).
Definition pt (m : mesh) (k : Z) (t : tetra) : mesh :=
  p_tet m (mkArr (alen (m_tet m)) (upd (aget (m_tet m)) k t)).
Definition pa (m : mesh) (k i x : Z) : mesh :=
  p_adjs m (mkArr (alen (m_adj m)) (upd (aget (m_adj m)) (4 * (k - 1) + 1 + i) x)).

Lemma set_t_ok m k t : intab m k -> set_t m k t = Ret (pt m k t).
Proof. intros H. unfold set_t. rewrite wr_ok by apply H. reflexivity. Qed.
Lemma set_v_ok m k i x : intab m k -> set_v m k i x = Ret (pv m k i x).
Proof. intros H. unfold set_v. rewrite get_t_ok by exact H. cbn [bind]. rewrite set_t_ok by exact H. reflexivity. Qed.
Lemma set_adj_ok m k i x : intab m k -> loc i -> set_adj m k i x = Ret (pa m k i x).
Proof. intros H L. unfold set_adj. rewrite wr_ok by (unfold intab, loc in *; lia). reflexivity. Qed.

Definition at2 (k i l j : Z) : bool := (l =? k) && (j =? i).
Lemma at2_same k i : at2 k i k i = true.
Proof. unfold at2. rewrite !Z.eqb_refl. reflexivity. Qed.
Lemma at2_k k i l j : l <> k -> at2 k i l j = false.
Proof. unfold at2. intros. destruct (Z.eqb_spec l k); [contradiction|reflexivity]. Qed.
Lemma at2_i k i l j : j <> i -> at2 k i l j = false.
Proof. unfold at2. intros. destruct (Z.eqb_spec j i); [contradiction|apply andb_false_r]. Qed.
Lemma at2_dec k i l j : (l = k /\ j = i /\ at2 k i l j = true) \/ (~ (l = k /\ j = i) /\ at2 k i l j = false).
Proof. unfold at2. destruct (Z.eqb_spec l k), (Z.eqb_spec j i); cbn; tauto. Qed.

Lemma vtx_pv m k i x l j : vtx (pv m k i x) l j = if at2 k i l j then x else vtx m l j.
Proof. unfold vtx, pv, at2, upd; cbn. destruct (Z.eqb_spec l k); cbn; subst; reflexivity. Qed.
Lemma vtx_pa m k i x l j : vtx (pa m k i x) l j = vtx m l j.
Proof. reflexivity. Qed.
Lemma nb_pv m k i x l j : nb (pv m k i x) l j = nb m l j.
Proof. reflexivity. Qed.
Lemma nb_pa m k i x l j : loc i -> loc j -> nb (pa m k i x) l j = if at2 k i l j then x else nb m l j.
Proof.
  intros Li Lj. unfold nb, pa, upd, at2; cbn [aget m_adj p_adjs].
  destruct (Z.eqb_spec (4 * (l - 1) + 1 + j) (4 * (k - 1) + 1 + i)) as [E|N].
  - assert (l = k /\ j = i) as [-> ->] by (unfold loc in *; lia). rewrite !Z.eqb_refl. reflexivity.
  - destruct (Z.eqb_spec l k), (Z.eqb_spec j i); cbn; try reflexivity. subst. congruence.
Qed.

(** Everything but the tetrahedra and the adjacency. *)
Definition same_frame (m m' : mesh) : Prop :=
  alen (m_tet m') = alen (m_tet m) /\ alen (m_adj m') = alen (m_adj m) /\ m_xt m' = m_xt m /\ m_nil m' = m_nil m /\
  m_ne m' = m_ne m /\ m_nemax m' = m_nemax m /\ m_base m' = m_base m /\ m_nxt m' = m_nxt m /\ m_gaps m' = m_gaps m /\ m_xgaps m' = m_xgaps m.
Lemma frame_refl m : same_frame m m.
Proof. repeat split. Qed.
Lemma frame_trans a b c : same_frame a b -> same_frame b c -> same_frame a c.
Proof. unfold same_frame. intuition congruence. Qed.
Lemma frame_pv m k i x : same_frame m (pv m k i x).
Proof. repeat split. Qed.
Lemma frame_pa m k i x : same_frame m (pa m k i x).
Proof. repeat split. Qed.
Lemma frame_pt m k t : same_frame m (pt m k t).
Proof. repeat split. Qed.
Lemma intab_frame m m' k : same_frame m m' -> intab m k -> intab m' k.
Proof. intros (A & B & _) H. unfold intab in *. rewrite A, B. exact H. Qed.

(** ** The free list *)

Lemma chain_frame m m' : m_nemax m <= m_nemax m' -> (forall x, live m' x -> live m x) ->
  forall n fl, chain m n fl -> (forall x, In x fl -> vtx m' x 3 = vtx m x 3) -> chain m' n fl.
Proof.
  intros E L n fl C. induction C as [|k fl B N I C IH]; intros V; [constructor|].
  constructor; [lia| |exact I|].
  - intros H. apply N, L, H.
  - rewrite V by (left; reflexivity). apply IH. intros x Hx. apply V. right. exact Hx.
Qed.

Lemma full_frame m m' l : m_nemax m' = m_nemax m -> (forall x, live m x -> live m' x) -> full m l -> full m' l.
Proof. intros E L F k B. rewrite E in B. destruct (F k B); auto. Qed.

Lemma shrink_ok : forall fuel m, m_ne m < Z.of_nat fuel -> 0 <= m_ne m < alen (m_tet m) -> (forall x, live m x -> x <= m_ne m) ->
  exists n, shrink_ne m fuel = Ret (p_ne m n) /\ 0 <= n <= m_ne m /\ (forall x, live m x -> x <= n) /\ (n = 0 \/ live m n).
Proof.
  induction fuel as [|f IH]; intros m HF B L; cbn [shrink_ne].
  - lia.
  - unfold get_t. rewrite rd_ok by exact B. cbn [bind]. destruct (negb (MG_EOK (aget (m_tet m) (m_ne m))) && negb (m_ne m =? 0)) eqn:E.
    + apply andb_true_iff in E. destruct E as [E1 E2]. apply negb_true_iff in E1, E2. apply Z.eqb_neq in E2. unfold MG_EOK in E1. apply Z.ltb_ge in E1.
      destruct (IH (p_ne m (m_ne m - 1))) as (n & En & Bn & Ln).
      * cbn [m_ne p_ne]. lia.
      * cbn. lia.
      * intros x Lx. change (live m x) in Lx. cbn. specialize (L x Lx). destruct (Z.eq_dec x (m_ne m)) as [->|]; [|lia]. destruct Lx. lia.
      * exists n. split; [rewrite En; reflexivity|]. cbn in Bn. split; [lia|exact Ln].
    + exists (m_ne m). split; [destruct m; reflexivity|]. split; [lia|]. split; [exact L|].
      destruct (Z.eqb_spec (m_ne m) 0); [auto|right]. rewrite andb_true_r in E. apply negb_false_iff in E. unfold MG_EOK in E. apply Z.ltb_lt in E. split; [lia|exact E].
Qed.

Lemma loc_all : loc 0 /\ loc 1 /\ loc 2 /\ loc 3.
Proof. unfold loc. lia. Qed.

Lemma delElt_ok m e : tables_ok m -> live m e ->
  exists m', delElt m e = Ret (1, m') /\ tables_ok m' /\ m_xt m' = m_xt m /\
  (forall x, live m' x <-> live m x /\ x <> e) /\
  (forall x, x <> e -> aget (m_tet m') x = aget (m_tet m) x) /\
  (forall x y, x <> e -> loc y -> nb m' x y = nb m x y).
Proof.
  intros HT Le. pose proof (live_intab m e HT Le) as Ie. pose proof HT as (A & B & C & D & E & (fl & Ch & Fu) & G & NE).
  pose proof loc_all as (L0 & L1 & L2 & L3).
  unfold delElt. rewrite get_t_ok by exact Ie. cbn [bind].
  assert (MG_EOK (aget (m_tet m) e) = true) as -> by (unfold MG_EOK; apply Z.ltb_lt; apply Le). cbn [negb].
  rewrite set_t_ok by exact Ie. cbn [bind]. set (ma := pt m e _).
  rewrite set_adj_ok by assumption. cbn [bind].
  rewrite set_adj_ok by assumption. cbn [bind].
  rewrite set_adj_ok by assumption. cbn [bind].
  rewrite set_adj_ok by assumption. cbn [bind].
  set (mb := pa (pa (pa (pa ma e 0 0) e 1 0) e 2 0) e 3 0).
  set (mc := p_nil mb e).
  assert (Lc : forall x, live mc x <-> live m x /\ x <> e).
  { intros x. unfold live, mc, mb, ma, pa, pt. cbn [m_tet p_nil p_adjs p_tet alen aget]. unfold upd. destruct (Z.eqb_spec x e) as [->|N].
    - cbn. split; [lia|intros [_ X]; contradiction].
    - tauto. }
  assert (Vc : forall x, x <> e -> aget (m_tet mc) x = aget (m_tet m) x).
  { intros x N. unfold mc, mb, ma, pa, pt. cbn [m_tet p_nil p_adjs p_tet aget]. rewrite upd_other by exact N. auto. }
  assert (Nc : forall x y, x <> e -> loc y -> nb mc x y = nb m x y).
  { intros x y N Ly. change (nb mc x y) with (nb mb x y). unfold mb. rewrite !nb_pa by assumption. rewrite !at2_k by exact N. reflexivity. }
  assert (Ve : vtx mc e 3 = m_nil m).
  { unfold vtx, mc, mb, ma, pa, pt. cbn [m_tet p_nil p_adjs p_tet aget]. rewrite upd_same. reflexivity. }
  assert (Fc : full mc (e :: fl)).
  { intros x Bx. destruct (Z.eq_dec x e) as [->|Nx]; [right; left; reflexivity|]. destruct (Fu x Bx) as [X|X]; [left; apply Lc; auto|right; right; exact X]. }
  assert (Ee : e <= m_ne m) by (apply E, Le).
  assert (Cc : (m_ne m < m_nemax m) /\ 1 <= e) by (split; [lia|apply Le]).
  assert (Tc : alen (m_tet mc) = m_nemax mc + 1 /\ alen (m_adj mc) = 4 * m_nemax mc + 5 /\ 0 <= m_ne mc < m_nemax mc /\ vtx mc (m_nemax mc) 3 = 0 /\
    (forall x, live mc x -> x <= m_ne mc) /\ chain mc (m_nil mc) (e :: fl) /\ (forall g b, In (g, b) (m_gaps mc) -> 1 <= g)).
  { change (alen (m_tet mc)) with (alen (m_tet m)). change (alen (m_adj mc)) with (alen (m_adj m)).
    change (m_ne mc) with (m_ne m). change (m_nemax mc) with (m_nemax m). change (m_gaps mc) with (m_gaps m). change (m_nil mc) with e.
    pose proof (E e Le) as Be. repeat split; try assumption; try apply C.
    - unfold vtx. rewrite Vc; [exact D|lia].
    - intros x Lx. apply Lc in Lx. apply E, Lx.
    - assert (NI : ~ In e fl).
      { clear - Ch Le. induction Ch as [|k l B N I Ch IH]; [intros []|]. intros [->|H]; [contradiction|exact (IH H)]. }
      constructor; [cbn; unfold intab in Ie; lia|intros X; apply Lc in X; destruct X; contradiction|exact NI|].
      rewrite Ve. apply (chain_frame m mc); [cbn; lia|intros x X; apply Lc, X|exact Ch|].
      intros x Hx. unfold vtx. rewrite Vc; [reflexivity|]. intros ->. contradiction. }
  change (m_ne mc) with (m_ne m).
  assert (R : exists n, (if e =? m_ne m then shrink_ne mc (S (Z.to_nat (m_ne m))) else Ret mc) = Ret (p_ne mc n) /\ 0 <= n <= m_ne m /\ (forall x, live mc x -> x <= n) /\ (n = 0 \/ live mc n)).
  { destruct (Z.eqb_spec e (m_ne m)).
    - apply (shrink_ok (S (Z.to_nat (m_ne m))) mc); [change (m_ne mc) with (m_ne m); lia|cbn; lia|]. intros x Lx. apply Tc, Lx.
    - exists (m_ne m). split; [reflexivity|]. split; [lia|]. split; [intros x Lx; apply Tc, Lx|]. right. apply Lc. split; [|auto]. destruct NE; [lia|assumption]. }
  destruct R as (n & -> & Bn & Ln & Xn). cbn [bind]. exists (p_ne mc n). split; [reflexivity|].
  split; [|split; [reflexivity|split; [exact Lc|split; [exact Vc|exact Nc]]]].
  destruct Tc as (T1 & T2 & T3 & T4 & T5 & T6 & T7). split; [exact T1|]. split; [exact T2|]. split; [cbn; lia|]. split; [exact T4|].
  split; [exact Ln|]. split; [|split; [exact T7|exact Xn]]. exists (e :: fl). split; [|exact Fc]. apply (chain_frame mc (p_ne mc n)); [cbn; lia|auto|exact T6|reflexivity].
Qed.

(** ** New tetrahedra *)

(** Nothing changes for the tetrahedra in use. *)
Definition same_live (m m' : mesh) : Prop :=
  (forall x, live m' x <-> live m x) /\ m_xt m' = m_xt m /\ m_nxt m' = m_nxt m /\ m_xgaps m' = m_xgaps m /\
  (forall x, live m x -> aget (m_tet m') x = aget (m_tet m) x) /\
  (forall x y, live m x -> loc y -> nb m' x y = nb m x y).

Lemma same_live_refl m : same_live m m.
Proof. split; [tauto|]. auto. Qed.
Lemma same_live_trans a b c : same_live a b -> same_live b c -> same_live a c.
Proof.
  intros (A1 & A2 & A5 & A6 & A3 & A4) (B1 & B2 & B5 & B6 & B3 & B4). split; [|split; [congruence|split; [congruence|split; [congruence|split]]]].
  - intros x. rewrite (B1 x). apply A1.
  - intros x H. rewrite (B3 x (proj2 (A1 x) H)). apply A3, H.
  - intros x y L Ly. rewrite (B4 x y (proj2 (A1 x) L) Ly). exact (A4 x y L Ly).
Qed.

(** The tables when tetrahedron [e] is neither in use nor free. *)
Definition tables_but (m : mesh) (e : Z) : Prop :=
  alen (m_tet m) = m_nemax m + 1 /\ alen (m_adj m) = 4 * m_nemax m + 5 /\
  0 <= m_ne m < m_nemax m /\ vtx m (m_nemax m) 3 = 0 /\
  (forall k, live m k -> k <= m_ne m) /\
  (exists l, chain m (m_nil m) l /\ ~ In e l /\ full m (e :: l)) /\
  (forall g b, In (g, b) (m_gaps m) -> 1 <= g) /\ 1 <= e <= m_ne m /\ ~ live m e /\ (live m (m_ne m) \/ m_ne m = e).

Lemma tables_but_intab m e k : tables_but m e -> live m k -> intab m k.
Proof. intros (A & B & C & D & E & _) L. pose proof (E k L). destruct L as [L _]. unfold intab. lia. Qed.

Lemma newElt_ok m : tables_ok m -> m_nil m <> 0 ->
  exists m1, newElt m = Ret (m_nil m, m1) /\ same_live m m1 /\ tables_but m1 (m_nil m).
Proof.
  intros (A & B & C & D & E & (fl & Ch & Fu) & G & NE) N. unfold newElt. rewrite (proj2 (Z.eqb_neq _ _) N).
  inversion Ch as [E0|k fl' Bk Nl NI Ch' E1 E2]; [congruence|]. subst k.
  set (e := m_nil m) in *.
  assert (R : forall mm, m_tet mm = m_tet m -> get_t mm e = Ret (aget (m_tet m) e)).
  { intros mm Em. unfold get_t. rewrite Em. apply rd_ok. lia. }
  rewrite R by (destruct (m_ne m <? e); reflexivity). cbn [bind].
  unfold set_t. rewrite wr_ok by (destruct (m_ne m <? e); cbn; lia). cbn [bind].
  eexists. split; [reflexivity|].
  set (m1 := p_tet _ _).
  assert (Etri : m_tet m1 = mkArr (alen (m_tet m)) (upd (aget (m_tet m)) e
     (mkTet (upd (qv (aget (m_tet m) e)) 3 0) (qref (aget (m_tet m) e)) (qtag (aget (m_tet m) e)) (qxt (aget (m_tet m) e)) (qflag (aget (m_tet m) e)))))
    by (unfold m1; destruct (m_ne m <? e); reflexivity).
  assert (Eadj : m_adj m1 = m_adj m) by (unfold m1; destruct (m_ne m <? e); reflexivity).
  assert (Exs : m_xt m1 = m_xt m /\ m_nxt m1 = m_nxt m /\ m_xgaps m1 = m_xgaps m) by (unfold m1; destruct (m_ne m <? e); auto).
  assert (Enil : m_nil m1 = vtx m e 3) by (unfold m1; destruct (m_ne m <? e); reflexivity).
  assert (Ent : m_ne m1 = Z.max (m_ne m) e) by (unfold m1; destruct (Z.ltb_spec (m_ne m) e); cbn; lia).
  assert (Emx : m_nemax m1 = m_nemax m) by (unfold m1; destruct (m_ne m <? e); reflexivity).
  assert (Egp : m_gaps m1 = m_gaps m) by (unfold m1; destruct (m_ne m <? e); reflexivity).
  clearbody m1.
  assert (V : forall x, x <> e -> aget (m_tet m1) x = aget (m_tet m) x).
  { intros x H. rewrite Etri. cbn [aget]. rewrite upd_other by exact H. reflexivity. }
  assert (L : forall x, live m1 x <-> live m x).
  { intros x. unfold live. rewrite Etri. cbn [alen aget]. unfold upd. destruct (Z.eqb_spec x e); [subst; cbn; reflexivity|reflexivity]. }
  assert (Sl : same_live m m1).
  { split; [exact L|]. destruct Exs as (X1 & X2 & X3). split; [exact X1|]. split; [exact X2|]. split; [exact X3|]. split.
    - intros x Lx. apply V. intros ->; contradiction.
    - intros x y Lx Ly. unfold nb. rewrite Eadj. reflexivity. }
  split; [exact Sl|].
  unfold tables_but. rewrite Eadj, Enil, Ent, Emx, Egp. rewrite Etri at 1. cbn [alen].
  repeat split; try assumption; try lia.
  - unfold vtx. rewrite V by lia. exact D.
  - intros x Lx. apply L in Lx. specialize (E x Lx). lia.
  - exists fl'. split; [|split; [exact NI|]].
    + apply (chain_frame m m1); [lia|intros x; apply L|exact Ch'|]. intros x Hx. unfold vtx. rewrite V; [reflexivity|]. intros ->. contradiction.
    + subst fl. apply (full_frame m m1); [exact Emx|intros x; apply L|exact Fu].
  - intros Lx. apply L in Lx. contradiction.
  - destruct (Z.max_spec (m_ne m) e) as [[_ ->]|[Q ->]]; [auto|]. left. apply L. destruct NE; [lia|assumption].
Qed.

(** The loop that chains the new tetrahedra. *)
Lemma link_loop (m0 : mesh) lo hi : 0 <= lo -> hi < alen (m_tet m0) -> lo <= hi + 1 ->
  exists s, for_range lo hi (fun k m => set_v m k 3 (k + 1)) m0 = Ret s /\
  m_adj s = m_adj m0 /\ same_frame m0 s /\
  (forall x, x < lo -> aget (m_tet s) x = aget (m_tet m0) x) /\
  (forall x y, vtx s x y = if (lo <=? x) && (x <=? hi) && (y =? 3) then x + 1 else vtx m0 x y).
Proof.
  intros H0 Hh Hl.
  destruct (@for_range_inv mesh (fun c s =>
    m_adj s = m_adj m0 /\ same_frame m0 s /\ (forall x, x < lo -> aget (m_tet s) x = aget (m_tet m0) x) /\
    (forall x y, vtx s x y = if (lo <=? x) && (x <=? c - 1) && (y =? 3) then x + 1 else vtx m0 x y))
    (fun k m => set_v m k 3 (k + 1)) lo hi m0 Hl) as (s & Es & P).
  - repeat split. intros x y. destruct (Z.leb_spec lo x), (Z.leb_spec x (lo - 1)); cbn; try reflexivity; lia.
  - intros c s Hc (A1 & A2 & A7 & A8). pose proof (proj1 A2) as AL.
    exists (pv s c 3 (c + 1)). split.
    { unfold set_v, get_t. rewrite rd_ok by lia. cbn [bind]. unfold set_t. rewrite wr_ok by lia. reflexivity. }
    split; [exact A1|]. split; [eapply frame_trans; [exact A2|apply frame_pv]|]. split.
    + intros x Hx. unfold pv. cbn [m_tet p_tet aget]. rewrite upd_other by lia. apply A7, Hx.
    + intros x y. rewrite vtx_pv. unfold at2. destruct (Z.eqb_spec x c), (Z.eqb_spec y 3); cbn [andb]; subst.
      * destruct (Z.leb_spec lo c), (Z.leb_spec c (c + 1 - 1)); cbn; try lia.
      * rewrite A8. destruct (Z.eqb_spec y 3); [contradiction|]. rewrite !andb_false_r. reflexivity.
      * rewrite A8. destruct (Z.leb_spec lo x), (Z.leb_spec x (c - 1)), (Z.leb_spec x (c + 1 - 1)); cbn; try reflexivity; lia.
      * rewrite A8. destruct (Z.eqb_spec y 3); [contradiction|]. rewrite !andb_false_r. reflexivity.
  - exists s. replace (hi + 1 - 1) with hi in P by lia. split; [exact Es|exact P].
Qed.

Lemma chain_range s n : (forall x, live s x -> x < n) -> forall (c : nat) lo, n <= lo -> 1 <= lo ->
  lo + Z.of_nat c < m_nemax s ->
  (forall x, lo <= x < lo + Z.of_nat c -> vtx s x 3 = x + 1) -> vtx s (lo + Z.of_nat c) 3 = 0 ->
  exists fl, chain s lo fl /\ (forall x, In x fl -> lo <= x) /\ (forall x, lo <= x <= lo + Z.of_nat c -> In x fl).
Proof.
  intros HL. induction c as [|c IH]; intros lo Hn H1 Hm Hv H0.
  - exists [lo]. split; [|split; [intros x [<-|[]]; lia|intros x Hx; left; lia]].
    constructor; [lia|intros H; specialize (HL _ H); lia|intros []|].
    replace (lo + Z.of_nat 0) with lo in H0 by lia. rewrite H0. constructor.
  - destruct (IH (lo + 1)) as (fl & Ch & Lo & Al); try lia.
    + intros x Hx. apply Hv. lia.
    + replace (lo + 1 + Z.of_nat c) with (lo + Z.of_nat (S c)) by lia. exact H0.
    + exists (lo :: fl). split; [|split].
      * constructor; [lia|intros H; specialize (HL _ H); lia|intros H; specialize (Lo _ H); lia|].
        rewrite Hv by lia. exact Ch.
      * intros x [<-|Hx]; [lia|specialize (Lo _ Hx); lia].
      * intros x Hx. destruct (Z.eq_dec lo x); [left; assumption|right; apply Al; lia].
Qed.

Lemma realloc_ok m : tables_ok m -> m_nil m = 0 ->
  exists iel m1, tetra_realloc m = Ret (iel, m1) /\ same_live m m1 /\
  (iel = 0 \/ tables_but m1 iel).
Proof.
  intros (A & B & C & D & E & (fl & Ch & Fu) & G & NE) NL. unfold tetra_realloc.
  assert (Efl : fl = []) by (rewrite NL in Ch; inversion Ch; [reflexivity|lia]). subst fl.
  destruct (m_gaps m) as [|[g adjok] gs] eqn:EG; [exists 0, m; auto using same_live_refl|].
  assert (Hg : 1 <= g) by (apply (G g adjok); left; reflexivity).
  set (mx := m_nemax m + g). set (m0 := mkMesh _ _ _ _ _ _ _ _ _ _).
  destruct (link_loop m0 (m_ne m + 1) (mx - 2)) as (s & Es & S1 & SF & S9 & S8); [lia|cbn; lia|lia|].
  pose proof SF as (S7 & _ & S2 & S3 & S4 & S5 & _ & S2b & S6 & S2c).
  change (m_ne m0 + 1) with (m_ne m + 1). rewrite Es. cbn [bind].
  assert (L0 : forall x, live m0 x <-> live m x).
  { intros x. unfold live, m0. cbn [m_tet alen aget]. fold mx. split; intros [X Y].
    - destruct (Z.ltb_spec x (m_nemax m + 1)); [split; [lia|exact Y]|cbn in Y; lia].
    - split; [lia|]. destruct (Z.ltb_spec x (m_nemax m + 1)); [exact Y|lia]. }
  assert (V0 : forall x, x <= m_nemax m -> aget (m_tet m0) x = aget (m_tet m) x).
  { intros x H. unfold m0. cbn [m_tet aget]. destruct (Z.ltb_spec x (m_nemax m + 1)); [auto|lia]. }
  assert (Ls : forall x, live s x <-> live m x).
  { intros x. rewrite <- L0. unfold live. rewrite S7. change (qv (aget (m_tet s) x) 0) with (vtx s x 0).
    rewrite S8, andb_false_r. reflexivity. }
  assert (Sl : same_live m s).
  { split; [exact Ls|]. split; [exact S2|]. split; [exact S2b|]. split; [exact S2c|]. split.
    - intros x Lx. pose proof (E x Lx). rewrite S9 by lia. apply V0. lia.
    - intros x y Lx Ly. unfold nb. rewrite S1. reflexivity. }
  destruct adjok.
  2:{ exists 0, s. auto. }
  set (s1 := p_adjs s _).
  assert (L1 : forall x, live s1 x <-> live m x) by exact Ls.
  assert (Sl1 : same_live m s1).
  { destruct Sl as (P1 & P2 & P5 & P6 & P3 & P4). split; [exact P1|]. split; [exact P2|]. split; [exact P5|]. split; [exact P6|]. split; [exact P3|].
    intros x y Lx Ly. rewrite <- (P4 x y Lx Ly). unfold nb, s1, arecalloc. cbn [m_adj p_adjs aget].
    rewrite S1. change (m_adj m0) with (m_adj m). pose proof (E x Lx). pose proof (proj1 (loc_le _) Ly).
    destruct (Z.ltb_spec (4 * (x - 1) + 1 + y) (alen (m_adj m))); [reflexivity|lia]. }
  assert (T1 : tables_ok s1).
  { assert (Emx : m_nemax s = mx) by exact S5. assert (Ent : m_ne s = m_ne m) by exact S4.
    assert (Enl : m_nil s = m_ne m + 1) by exact S3. assert (Egs : m_gaps s = gs) by exact S6.
    unfold tables_ok, s1. cbn [m_tet m_adj m_nemax m_ne m_nil m_gaps p_adjs arecalloc alen].
    rewrite Emx, Ent, Enl, Egs, S7. cbn [m0 m_tet alen]. fold mx. repeat split; try lia.
    - change (vtx s mx 3 = 0). rewrite S8. destruct (Z.leb_spec mx (mx - 2)); [lia|]. rewrite andb_false_r. cbn [andb].
      unfold vtx, m0. cbn [m_tet aget]. destruct (Z.ltb_spec mx (m_nemax m + 1)); [lia|reflexivity].
    - intros x Lx. apply L1 in Lx. exact (E x Lx).
    - destruct (chain_range s (m_ne m + 1)) with (c := Z.to_nat (mx - 1 - (m_ne m + 1))) (lo := m_ne m + 1) as (fl' & Ch' & _ & Al).
      + intros x Lx. apply Ls in Lx. specialize (E x Lx). lia.
      + lia.
      + lia.
      + rewrite Emx. lia.
      + intros x Hx. rewrite S8. destruct (Z.leb_spec (m_ne m + 1) x), (Z.leb_spec x (mx - 2)); cbn; lia.
      + replace (m_ne m + 1 + Z.of_nat (Z.to_nat (mx - 1 - (m_ne m + 1)))) with (mx - 1) by lia.
        rewrite S8. destruct (Z.leb_spec (mx - 1) (mx - 2)); [lia|]. rewrite andb_false_r. cbn [andb].
        unfold vtx, m0. cbn [m_tet aget]. destruct (Z.ltb_spec (mx - 1) (m_nemax m + 1)); [|reflexivity].
        assert (mx - 1 = m_nemax m) as -> by lia. exact D.
      + exists fl'. split; [revert Ch'; clear - s1; intros Ch'; apply (chain_frame s s1); [cbn; lia|intros x H; exact H|exact Ch'|reflexivity]|].
        intros x Bx. assert (Bx' : 1 <= x < mx) by (rewrite <- Emx; exact Bx). destruct (Z_lt_le_dec x (m_nemax m)) as [Lt|Ge].
        * left. apply L1. destruct (Fu x) as [X|[]]; [lia|exact X].
        * right. apply Al. lia.
    - intros g' b' Hi. apply (G g' b'). right. exact Hi.
    - destruct NE as [NE|NE]; [left; exact NE|right; apply L1; exact NE]. }
  destruct (newElt_ok s1 T1) as (m1 & En & Sn & Tn).
  { change (m_nil s <> 0). rewrite S3. cbn. lia. }
  rewrite En. eexists _, m1. split; [reflexivity|]. split; [eapply same_live_trans; eassumption|]. right. exact Tn.
Qed.

Lemma newElt_re_ok m : tables_ok m ->
  exists iel m1, newElt_re m = Ret (iel, m1) /\ same_live m m1 /\ (iel = 0 \/ tables_but m1 iel).
Proof.
  intros HT. unfold newElt_re. destruct (Z.eq_dec (m_nil m) 0) as [E|N].
  - unfold newElt. rewrite (proj2 (Z.eqb_eq _ _) E). cbn [bind Z.eqb]. apply realloc_ok; assumption.
  - destruct (newElt_ok m HT N) as (m1 & -> & S & T). cbn [bind]. rewrite (proj2 (Z.eqb_neq _ _) N).
    exists (m_nil m), m1. auto.
Qed.

(** A tetrahedron taken from the pool comes into use. *)
Lemma tables_use m m' e : same_frame m m' -> (forall x, live m' x <-> live m x \/ x = e) ->
  (forall x, ~ live m x -> x <> e -> vtx m' x 3 = vtx m x 3) -> tables_but m e -> tables_ok m'.
Proof.
  intros (A1 & A2 & A3 & A4 & A5 & A6 & _ & _ & A7 & _) L V (B1 & B2 & B3 & B4 & B5 & (fl & B6 & B6' & Fu) & B7 & B8 & B9 & NE).
  unfold tables_ok. rewrite A1, A2, A4, A5, A6, A7. repeat split; try assumption; try apply B3.
  - rewrite V; [exact B4| |lia]. intros H. specialize (B5 _ H). lia.
  - intros x H. apply L in H. destruct H as [H| ->]; [exact (B5 x H)|lia].
  - exists fl. split; [|intros x Bx; rewrite A6 in Bx; destruct (Fu x Bx) as [X|[X|X]]; [left; apply L; auto|left; apply L; auto|right; exact X]].
    clear - A6 L V B6 B6'. revert B6 B6'. generalize (m_nil m). intros n C.
    induction C as [|k fl B N I C IH]; intros NI; [constructor|].
    assert (k <> e) by (intros ->; apply NI; left; reflexivity).
    constructor; [rewrite A6; exact B| |exact I|rewrite V by assumption; apply IH; intros H1; apply NI; right; exact H1].
    intros H1. apply L in H1. destruct H1; contradiction.
  - right. apply L. destruct NE as [NE|NE]; [left; exact NE|right; exact NE].
Qed.
