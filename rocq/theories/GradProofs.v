(** Invariants of the gradation sweeps. *)
From Coq Require Import ZArith QArith Qabs Lqa List Bool Lia.
From Verif Require Import CBase Chain BdryProofs OctModel PropsOct2 FracModel ScaleModel GradModel.
Import ListNotations.
Open Scope Z_scope.

(** ** Vocabulary of the statements *)

Definition gvx (m : gmesh) (k : Z) (i : nat) : Z := gv (aget (g_elt m) k) i.
Definition valid (m : gmesh) (k : Z) : Prop := 1 <= k <= g_n m /\ gok (aget (g_elt m) k) = true.
(** Elements the sweeps look at: the required tetrahedra are not. *)
Definition treated (d : gdim) (m : gmesh) (k : Z) : Prop := valid m k /\ (g_skip d = true -> greq (aget (g_elt m) k) = false).
(** The ends of an edge of such an element. *)
Definition gedge (d : gdim) (m : gmesh) (a b : Z) : Prop :=
  exists k i j, treated d m k /\ (i < g_nv d)%nat /\ (j < g_nv d)%nat /\ i <> j /\ a = gvx m k i /\ b = gvx m k j.
(** End of a required edge. *)
Definition onreq (d : gdim) (m : gmesh) (p : Z) : Prop :=
  exists k i a b, valid m k /\ In (i, (a, b)) (g_mark d) /\ gtag (aget (g_elt m) k) i = true /\ (p = gvx m k a \/ p = gvx m k b).

Record gwf (d : gdim) (m : gmesh) : Prop := {
  gw_n : 0 <= g_n m < alen (g_elt m);
  gw_np : 0 <= g_np m;
  gw_v : forall k i, valid m k -> (i < g_nv d)%nat -> 1 <= gvx m k i <= g_np m }.

Record gdim_ok (d : gdim) : Prop := {
  go_vis : forall i j, In (i, j) (g_vis d) -> (i < g_nv d)%nat /\ (j < g_nv d)%nat /\ i <> j;
  go_all : forall i j, (i < g_nv d)%nat -> (j < g_nv d)%nat -> i <> j -> In (i, j) (g_vis d) \/ In (j, i) (g_vis d);
  go_mark : forall i a b, In (i, (a, b)) (g_mark d) -> (a < g_nv d)%nat /\ (b < g_nv d)%nat;
  go_top : forall n, 0 <= n -> 2 <= g_top d n;
  go_sym : forall p q, (g_dd d p q == g_dd d q p)%Q;
  go_symr : forall p q, (g_ddr d p q == g_ddr d q p)%Q }.

Record root (rt : Q -> Q) : Prop := {
  rt_pos : forall x, (0 <= rt x)%Q;
  rt_eq : forall x y, (x == y -> rt x == rt y)%Q }.

(** ** The pairs visited *)

Definition tb (d : gdim) (m : gmesh) (k : Z) : bool := negb (negb (gok (aget (g_elt m) k)) || (g_skip d && greq (aget (g_elt m) k))).
Definition pairs_of (d : gdim) (m : gmesh) (t : Z -> bool) : list (Z * Z) :=
  flat_map (fun k => if t k then map (fun x => (gvx m k (fst x), gvx m k (snd x))) (g_vis d) else []) (zrange 1 (g_n m)).
Definition pairs (d : gdim) (m : gmesh) : list (Z * Z) := pairs_of d m (tb d m).

Lemma foldM_flat_map X Y S (f : Y -> S -> outcome S) (g : X -> list Y) l : forall s,
  foldM f (flat_map g l) s = foldM (fun x s => foldM f (g x) s) l s.
Proof.
  induction l as [|x l IH]; intros s; cbn [flat_map foldM]; [reflexivity|]. rewrite foldM_app.
  destruct (foldM f (g x) s); cbn [bind]; [apply IH|reflexivity].
Qed.

Lemma foldM_map X Y S (f : Y -> S -> outcome S) (g : X -> Y) l : forall s, foldM f (map g l) s = foldM (fun x s => f (g x) s) l s.
Proof. induction l as [|x l IH]; intros s; cbn [map foldM]; [reflexivity|]. destruct (f (g x) s); cbn [bind]; [apply IH|reflexivity]. Qed.

Lemma sweep_fold d rt hg m s base st : gwf d m ->
  sweep d rt hg m s base st = foldM (fun ab st => visit rt hg (g_dd d) m s base (fst ab) (snd ab) st) (pairs d m) st.
Proof.
  intros W. unfold sweep, pairs, pairs_of. rewrite for_range_fold, foldM_flat_map. apply foldM_ext. intros k st' Hk. apply in_zrange in Hk.
  rewrite rd_ok by (pose proof (gw_n d m W); lia). cbn [bind]. unfold tb. destruct (negb (gok (aget (g_elt m) k)) || (g_skip d && greq (aget (g_elt m) k))); cbn [negb]; [reflexivity|].
  rewrite foldM_map. reflexivity.
Qed.

Lemma tb_ok d m k : 1 <= k <= g_n m -> tb d m k = true <-> treated d m k.
Proof.
  intros Hk. unfold tb, treated, valid.
  destruct (gok (aget (g_elt m) k)), (g_skip d), (greq (aget (g_elt m) k)); cbn [negb andb orb]; split; intros H; try discriminate; try reflexivity;
    try (split; [split; [exact Hk|reflexivity]|intros; reflexivity || discriminate]).
  all: destruct H as [[_ H1] H2]; try discriminate. specialize (H2 eq_refl). discriminate.
Qed.

Lemma pairs_edge d m a b : gdim_ok d -> In (a, b) (pairs d m) -> gedge d m a b.
Proof.
  intros D H. unfold pairs, pairs_of in H. apply in_flat_map in H. destruct H as (k & Hk & H). apply in_zrange in Hk.
  destruct (tb d m k) eqn:T; [|destruct H]. apply in_map_iff in H. destruct H as ((i & j) & E & H). injection E as <- <-.
  destruct (go_vis d D i j H) as (A & B & C). exists k, i, j. repeat split; auto; apply tb_ok in T; auto; apply T.
Qed.

Lemma edge_pairs d m a b : gdim_ok d -> gedge d m a b -> In (a, b) (pairs d m) \/ In (b, a) (pairs d m).
Proof.
  intros D (k & i & j & T & Hi & Hj & N & -> & ->). pose proof T as T2. destruct T2 as [[Hk _] _]. apply (tb_ok d m k Hk) in T.
  unfold pairs, pairs_of. destruct (go_all d D i j Hi Hj N) as [X|X]; [left|right]; apply in_flat_map; exists k; (split; [apply in_zrange; exact Hk|]);
    rewrite T; apply in_map_iff; [exists (i, j)|exists (j, i)]; auto.
Qed.

Lemma gedge_sym d m a b : gedge d m a b -> gedge d m b a.
Proof. intros (k & i & j & T & Hi & Hj & N & -> & ->). exists k, j, i. repeat split; auto; apply T. Qed.

Lemma gedge_range d m a b : gwf d m -> gedge d m a b -> 1 <= a <= g_np m /\ 1 <= b <= g_np m.
Proof. intros W (k & i & j & T & Hi & Hj & N & -> & ->). split; apply (gw_v d m W); auto; apply T. Qed.

(** ** The marks *)

Lemma marks_spec d m s : gdim_ok d -> gwf d m -> g_np m < alen s ->
  exists s', marks d m s = Ret s' /\ alen s' = alen s /\
    forall p, 1 <= p <= g_np m -> (aget s' p = 0 /\ ~ onreq d m p) \/ (aget s' p = g_top d (g_n m) /\ onreq d m p).
Proof.
  intros D W L. pose proof (gw_np d m W) as Hnp. pose proof (gw_n d m W) as Hn. unfold marks.
  destruct (@for_range_inv _ (fun i (t : arr Z) => alen t = alen s /\ forall p, 1 <= p < i -> aget t p = 0)
    (fun k s => wr s k 0) 1 (g_np m) s) as (s1 & E1 & L1 & Z1).
  - lia.
  - split; [reflexivity|lia].
  - intros i t Hi (Lt & Zt). rewrite wr_ok by lia. eexists. split; [reflexivity|]. split; [exact Lt|]. cbn [aget]. intros p Hp.
    unfold upd. destruct (Z.eqb_spec p i); [reflexivity|]. apply Zt. lia.
  - rewrite E1. cbn [bind]. rewrite for_range_fold.
    set (seen := fun (ks : list Z) (ms : list (nat * (nat * nat))) kk p =>
       (exists k i a b, In k ks /\ valid m k /\ In (i, (a, b)) (g_mark d) /\ gtag (aget (g_elt m) k) i = true /\ (p = gvx m k a \/ p = gvx m k b)) \/
       (exists i a b, In (i, (a, b)) ms /\ gtag (aget (g_elt m) kk) i = true /\ (p = gvx m kk a \/ p = gvx m kk b))).
    set (P := fun ks ms kk (t : arr Z) => alen t = alen s /\ forall p, 1 <= p <= g_np m ->
       (aget t p = 0 /\ ~ seen ks ms kk p) \/ (aget t p = g_top d (g_n m) /\ seen ks ms kk p)).
    destruct (@foldM_inv Z (arr Z) (fun pre t => P pre [] 0 t)
      (fun k s => e <- rd (g_elt m) k ;; if negb (gok e) then Ret s else foldM (fun x s =>
        if gtag e (fst x) then s <- wr s (gv e (fst (snd x))) (g_top d (g_n m)) ;; wr s (gv e (snd (snd x))) (g_top d (g_n m)) else Ret s) (g_mark d) s)
      (zrange 1 (g_n m)) s1) as (s2 & E2 & L2 & H2).
    + split; [exact L1|]. intros p Hp. left. split; [apply Z1; lia|]. intros [(k & i & a & b & [] & _)|(i & a & b & [] & _)].
    + intros pre k post t Es (Lt & Ht). assert (Hk : 1 <= k <= g_n m) by (apply in_zrange; rewrite Es; apply in_elt).
      rewrite rd_ok by lia. cbn [bind]. destruct (gok (aget (g_elt m) k)) eqn:Ok; cbn [negb].
      * assert (V : valid m k) by (split; assumption).
        destruct (@foldM_inv (nat * (nat * nat)) (arr Z) (fun ms t => P pre ms k t)
          (fun x s => if gtag (aget (g_elt m) k) (fst x) then s <- wr s (gv (aget (g_elt m) k) (fst (snd x))) (g_top d (g_n m)) ;;
             wr s (gv (aget (g_elt m) k) (snd (snd x))) (g_top d (g_n m)) else Ret s) (g_mark d) t) as (t' & Et & Lt' & Ht').
        -- split; [exact Lt|]. intros p Hp. destruct (Ht p Hp) as [[A B]|[A B]]; [left|right]; (split; [exact A|]).
           ++ intros [X|(i & a & b & [] & _)]. apply B. left. exact X.
           ++ destruct B as [X|(i & a & b & [] & _)]. left. exact X.
        -- intros ms [i [a b]] mpost u Em (Lu & Hu). assert (Hi : In (i, (a, b)) (g_mark d)) by (rewrite Em; apply in_elt).
           destruct (go_mark d D i a b Hi) as [Ha Hb]. pose proof (gw_v d m W k a V Ha) as Va. pose proof (gw_v d m W k b V Hb) as Vb.
           unfold gvx in Va, Vb. cbn [fst snd]. destruct (gtag (aget (g_elt m) k) i) eqn:Tg.
           ++ rewrite wr_ok by lia. cbn [bind]. rewrite wr_ok by (cbn [alen]; lia). eexists. split; [reflexivity|]. split; [exact Lu|].
              intros p Hp. cbn [aget]. unfold upd. destruct (Z.eqb_spec p (gv (aget (g_elt m) k) b)) as [Eb|Nb].
              { right. split; [reflexivity|]. right. exists i, a, b. split; [apply in_elt|]. split; [exact Tg|]. right. exact Eb. }
              destruct (Z.eqb_spec p (gv (aget (g_elt m) k) a)) as [Ea|Na].
              { right. split; [reflexivity|]. right. exists i, a, b. split; [apply in_elt|]. split; [exact Tg|]. left. exact Ea. }
              destruct (Hu p Hp) as [[A B]|[A B]]; [left|right]; (split; [exact A|]).
              ** intros [X|(i' & a' & b' & X & Y & Z)]; [apply B; left; exact X|]. apply in_app_or in X. destruct X as [X|[X|[]]].
                 --- apply B. right. exists i', a', b'. auto.
                 --- injection X as <- <- <-. destruct Z as [Z|Z]; [apply Na|apply Nb]; exact Z.
              ** destruct B as [X|(i' & a' & b' & X & Y)]; [left; exact X|]. right. exists i', a', b'. split; [apply in_or_app; left; exact X|exact Y].
           ++ eexists. split; [reflexivity|]. split; [exact Lu|]. intros p Hp. destruct (Hu p Hp) as [[A B]|[A B]]; [left|right]; (split; [exact A|]).
              ** intros [X|(i' & a' & b' & X & Y & Z)]; [apply B; left; exact X|]. apply in_app_or in X. destruct X as [X|[X|[]]].
                 --- apply B. right. exists i', a', b'. auto.
                 --- injection X as <- <- <-. congruence.
              ** destruct B as [X|(i' & a' & b' & X & Y)]; [left; exact X|]. right. exists i', a', b'. split; [apply in_or_app; left; exact X|exact Y].
        -- exists t'. split; [exact Et|]. split; [exact Lt'|]. intros p Hp. destruct (Ht' p Hp) as [[A B]|[A B]]; [left|right]; (split; [exact A|]).
           ++ intros [(k' & i & a & b & X & Y & Z)|(i & a & b & [] & _)]. apply B. apply in_app_or in X. destruct X as [X|[<-|[]]].
              ** left. exists k', i, a, b. auto.
              ** right. exists i, a, b. exact Z.
           ++ left. destruct B as [(k' & i & a & b & X & Y)|(i & a & b & X & Y)].
              ** exists k', i, a, b. split; [apply in_or_app; left; exact X|exact Y].
              ** exists k, i, a, b. split; [apply in_elt|]. auto.
      * exists t. split; [reflexivity|]. split; [exact Lt|]. intros p Hp. destruct (Ht p Hp) as [[A B]|[A B]]; [left|right]; (split; [exact A|]).
        -- intros [(k' & i & a & b & X & Y & Z)|(i & a & b & [] & _)]. apply B. apply in_app_or in X. destruct X as [X|[<-|[]]].
           ++ left. exists k', i, a, b. auto.
           ++ destruct Y as [_ Y]. congruence.
        -- left. destruct B as [(k' & i & a & b & X & Y)|(i & a & b & [] & Y)]. exists k', i, a, b. split; [apply in_or_app; left; exact X|exact Y].
    + exists s2. split; [exact E2|]. split; [exact L2|]. intros p Hp. destruct (H2 p Hp) as [[A B]|[A B]]; [left|right]; (split; [exact A|]).
      * intros (k & i & a & b & X). apply B. left. exists k, i, a, b. split; [apply in_zrange; apply X|exact X].
      * destruct B as [(k & i & a & b & X & Y)|(i & a & b & [] & _)]. exists k, i, a, b. exact Y.
Qed.

(** ** The sweeps *)

Section Sweep.
  Variables (d : gdim) (rt : Q -> Q) (hg : Q) (m : gmesh) (s : arr Z) (base0 nm : Z).
  Hypothesis D : gdim_ok d.
  Hypothesis RT : root rt.
  Hypothesis HG : (0 <= hg)%Q.
  Hypothesis W : gwf d m.
  Hypothesis LS : g_np m < alen s.
  Hypothesis LN : g_np m < nm.

  Definition len (a b : Z) : Q := rt (g_dd d (g_pos m a) (g_pos m b)).

  Lemma len_sym a b : (len a b == len b a)%Q.
  Proof. apply (rt_eq rt RT). apply (go_sym d D). Qed.

  Lemma glen_pos a b : (0 <= hg * len a b)%Q.
  Proof. apply Qmult_le_0_compat; [exact HG|apply (rt_pos rt RT)]. Qed.

  (** The size at [t] is allowed by the size at [q]. *)
  Definition allowed (h : Z -> Q) (q t : Z) : Prop := (h t <= h q + hg * len q t \/ h q < EPSD)%Q.

  (** An update of [t] from [q] with base [B]. *)
  Definition pushes (B q t : Z) (h : Z -> Q) (f : Z -> Z) : Prop :=
    gedge d m q t /\ aget s q = 0 /\ aget s t = 0 /\ (EPSD <= h q)%Q /\ (h q + hg * len q t < h t)%Q /\ (B - 1 <= f q \/ B - 1 <= f t).

  Lemma visit_spec B a b met flg nu : In (a, b) (pairs d m) -> g_np m < alen met -> g_np m < alen flg ->
    exists st', visit rt hg (g_dd d) m s B a b (met, flg, nu) = Ret st' /\
      ((st' = (met, flg, nu) /\
        ((aget flg a < B - 1 /\ aget flg b < B - 1) \/ aget s a <> 0 \/ aget s b <> 0 \/ (allowed (aget met) a b /\ allowed (aget met) b a))) \/
       exists q t hn, ((q = a /\ t = b) \/ (q = b /\ t = a)) /\ pushes B q t (aget met) (aget flg) /\ (hn == aget met q + hg * len q t)%Q /\
         st' = (mkArr (alen met) (upd (aget met) t hn), mkArr (alen flg) (upd (aget flg) t B), nu + 1)).
  Proof.
    intros Hab LM LF. pose proof (pairs_edge d m a b D Hab) as E. destruct (gedge_range d m a b W E) as [Ra Rb].
    unfold visit. rewrite !rd_ok by lia. cbn [bind].
    destruct ((aget flg a <? B - 1) && (aget flg b <? B - 1)) eqn:Fl.
    { apply andb_true_iff in Fl. rewrite !Z.ltb_lt in Fl. eexists. split; [reflexivity|]. left. auto. }
    assert (FF : B - 1 <= aget flg a \/ B - 1 <= aget flg b).
    { apply andb_false_iff in Fl. rewrite !Z.ltb_ge in Fl. exact Fl. }
    destruct (Z.eqb_spec (aget s a) 0) as [Sa|Sa]; cbn [negb orb]; [|eexists; split; [reflexivity|]; left; auto].
    destruct (Z.eqb_spec (aget s b) 0) as [Sb|Sb]; cbn [negb orb]; [|eexists; split; [reflexivity|]; left; auto].
    pose proof (glen_pos a b) as Gab. pose proof (glen_pos b a) as Gba. fold (len a b). pose proof (len_sym a b) as LL.
    destruct (Qltb_spec (aget met a) (aget met b)) as [[-> H]|[-> H]].
    - destruct (Qltb_spec (aget met a) EPSD) as [[-> H1]|[-> H1]].
      { eexists. split; [reflexivity|]. left. split; [reflexivity|]. do 3 right. split; [right; exact H1|left; lra]. }
      destruct (Qltb_spec (aget met a + hg * len a b) (aget met b)) as [[-> H2]|[-> H2]].
      + rewrite !wr_ok by lia. cbn [bind]. eexists. split; [reflexivity|]. right. exists a, b, (aget met a + hg * len a b)%Q.
        split; [auto|]. split; [|split; [reflexivity|reflexivity]]. split; [exact E|]. auto.
      + eexists. split; [reflexivity|]. left. split; [reflexivity|]. do 3 right. split; left; lra.
    - destruct (Qltb_spec (aget met b) EPSD) as [[-> H1]|[-> H1]].
      { eexists. split; [reflexivity|]. left. split; [reflexivity|]. do 3 right. split; [left; lra|right; exact H1]. }
      assert (GG : (hg * len a b == hg * len b a)%Q) by (rewrite LL; reflexivity).
      destruct (Qltb_spec (aget met b + hg * len a b) (aget met a)) as [[-> H2]|[-> H2]].
      + rewrite !wr_ok by lia. cbn [bind]. eexists. split; [reflexivity|]. right. exists b, a, (aget met b + hg * len a b)%Q.
        split; [auto|]. split; [|split; [rewrite GG; reflexivity|reflexivity]]. split; [apply gedge_sym; exact E|].
        split; [exact Sb|]. split; [exact Sa|]. split; [exact H1|]. split; [lra|tauto].
      + eexists. split; [reflexivity|]. left. split; [reflexivity|]. do 3 right. split; left; lra.
  Qed.

  (** A property of the sizes kept by every update. *)
  Variable I : (Z -> Q) -> Prop.
  Hypothesis Istep : forall h q t hn, gedge d m q t -> aget s q = 0 -> aget s t = 0 -> (EPSD <= h q)%Q -> (h q + hg * len q t < h t)%Q ->
    (hn == h q + hg * len q t)%Q -> I h -> I (upd h t hn).

  (** The points a size comes from. *)
  Definition chain (h : Z -> Q) (f : Z -> Z) (p : Z) : Prop :=
    exists l, NoDup (p :: l) /\ f p - base0 <= Z.of_nat (length l) /\ forall x, In x l -> 1 <= x <= g_np m /\ (h x <= h p)%Q.

  Record sinv (B : Z) (pre : list (Z * Z)) (st : gstate) : Prop := {
    si_met : alen (fst (fst st)) = nm;
    si_flg : g_np m < alen (snd (fst st));
    si_nu : 0 <= snd st;
    si_le : forall p, 1 <= p <= g_np m -> aget (snd (fst st)) p <= B;
    si_none : snd st = 0 -> forall p, 1 <= p <= g_np m -> aget (snd (fst st)) p < B;
    si_some : 0 < snd st -> exists p, 1 <= p <= g_np m /\ aget (snd (fst st)) p = B;
    si_old : forall q t, gedge d m q t -> aget s q = 0 -> aget s t = 0 -> aget (snd (fst st)) q < B - 1 -> allowed (aget (fst (fst st))) q t;
    si_new : forall q t, In (q, t) pre \/ In (t, q) pre -> aget s q = 0 -> aget s t = 0 -> aget (snd (fst st)) q < B -> allowed (aget (fst (fst st))) q t;
    si_chain : forall p, 1 <= p <= g_np m -> chain (aget (fst (fst st))) (aget (snd (fst st))) p;
    si_I : I (aget (fst (fst st))) }.

  Lemma upd_le h t hn p : (hn < h t)%Q -> (upd h t hn p <= h p)%Q.
  Proof. intros H. unfold upd. destruct (Z.eqb_spec p t) as [->|N]; lra. Qed.

  Lemma sweep_spec B st : sinv B [] st ->
    exists st', sweep d rt hg m s B st = Ret st' /\ sinv B (pairs d m) st'.
  Proof.
    intros H0. rewrite (sweep_fold d rt hg m s B st W). apply foldM_inv; [exact H0|].
    intros pre [a b] post [[met flg] nu] Ep H. cbn [fst snd].
    assert (Hab : In (a, b) (pairs d m)) by (rewrite Ep; apply in_elt).
    destruct H as [LM LF NU LE NO SO OLD NEW CH HI]. cbn [fst snd] in *.
    pose proof (pairs_edge d m a b D Hab) as Eab. destruct (gedge_range d m a b W Eab) as [Ra Rb].
    destruct (visit_spec B a b met flg nu Hab ltac:(lia) LF) as (st' & E & [(-> & Why)|(q & t & hn & QT & P & Hn & ->)]); rewrite E; (eexists; split; [reflexivity|]).
    - constructor; cbn [fst snd]; auto. intros q t Hqt Sq St Fq.
      destruct Hqt as [Hqt|Hqt]; apply in_app_or in Hqt; destruct Hqt as [Hqt|[Hqt|[]]]; try (apply NEW; auto; fail); injection Hqt as -> ->.
      + destruct Why as [[A1 A2]|[A|[A|[A1 A2]]]]; try contradiction; [|exact A1]. apply OLD; auto.
      + destruct Why as [[A1 A2]|[A|[A|[A1 A2]]]]; try contradiction; [|exact A2]. apply OLD; auto. apply gedge_sym. exact Eab.
    - destruct P as (Eqt & Sq & St & Hq & Hlt & Ff). destruct (gedge_range d m q t W Eqt) as [Rq Rt].
      assert (FQ : B - 1 <= aget flg q).
      { destruct (Z.lt_ge_cases (aget flg q) (B - 1)) as [X|X]; [|exact X]. destruct (OLD q t Eqt Sq St X) as [Y|Y]; exfalso; lra. }
      assert (Hnt : (hn < aget met t)%Q) by lra. pose proof (glen_pos q t) as Gqt.
      assert (NQT : q <> t) by (intros ->; lra).
      assert (K : forall x y, allowed (aget met) x y -> x <> t -> allowed (upd (aget met) t hn) x y).
      { intros x y [A|A] N; [left|right]; rewrite (upd_other (aget met) hn N).
        - pose proof (upd_le (aget met) t hn y Hnt). lra.
        - exact A. }
      constructor; cbn [fst snd alen aget]; auto; try lia.
      + intros p Hp. unfold upd. destruct (p =? t); [lia|]. apply LE. exact Hp.
      + intros _. exists t. split; [exact Rt|]. apply upd_same.
      + intros x y Exy Sx Sy Fx. assert (N : x <> t) by (intros ->; rewrite upd_same in Fx; lia). rewrite upd_other in Fx by exact N.
        apply K; auto.
      + intros x y Hxy Sx Sy Fx. assert (N : x <> t) by (intros ->; rewrite upd_same in Fx; lia). rewrite upd_other in Fx by exact N.
        destruct Hxy as [Hxy|Hxy]; apply in_app_or in Hxy; destruct Hxy as [Hxy|[Hxy|[]]]; try (apply K; auto; fail); injection Hxy as -> ->.
        * destruct QT as [[-> ->]|[-> ->]]; [|contradiction]. left. rewrite upd_same, (upd_other _ _ N). lra.
        * destruct QT as [[-> ->]|[-> ->]]; [contradiction|]. left. rewrite upd_same, (upd_other _ _ N). lra.
      + intros p Hp. destruct (Z.eq_dec p t) as [->|N].
        * destruct (CH q Rq) as (l & ND & Ll & Hl). exists (q :: l).
          assert (Nt : ~ In t l). { intros X. destruct (Hl t X) as [_ Y]. lra. }
          split; [constructor; [intros [X|X]; [congruence|contradiction]|exact ND]|].
          split; [rewrite upd_same; cbn [length]; lia|].
          intros x [<-|X]; rewrite upd_same.
          -- split; [exact Rq|]. rewrite upd_other by exact NQT. lra.
          -- destruct (Hl x X) as [R1 R2]. split; [exact R1|]. rewrite upd_other by (intros ->; contradiction). lra.
        * destruct (CH p Hp) as (l & ND & Ll & Hl). exists l. split; [exact ND|]. rewrite (upd_other _ _ N). split; [exact Ll|].
          intros x X. destruct (Hl x X) as [R1 R2]. split; [exact R1|]. rewrite (upd_other _ _ N).
          pose proof (upd_le (aget met) t hn x Hnt). lra.
      + eapply Istep; eauto.
  Qed.

  (** State between two sweeps: [b] is the base of the last one. *)
  Record binv (b : Z) (met : arr Q) (flg : arr Z) : Prop := {
    bi_met : alen met = nm;
    bi_flg : g_np m < alen flg;
    bi_le : forall p, 1 <= p <= g_np m -> aget flg p <= b;
    bi_old : forall q t, gedge d m q t -> aget s q = 0 -> aget s t = 0 -> aget flg q < b -> allowed (aget met) q t;
    bi_chain : forall p, 1 <= p <= g_np m -> chain (aget met) (aget flg) p;
    bi_I : I (aget met) }.

  Lemma start_inv b met flg : binv b met flg -> sinv (b + 1) [] (met, flg, 0).
  Proof.
    intros [LM LF LE OLD CH HI]. constructor; cbn [fst snd].
    - exact LM.
    - exact LF.
    - lia.
    - intros p Hp. specialize (LE p Hp). lia.
    - intros _ p Hp. specialize (LE p Hp). lia.
    - lia.
    - intros q t E Sq St Fq. apply OLD; auto. lia.
    - intros q t [[]|[]].
    - exact CH.
    - exact HI.
  Qed.

  Lemma sweeps_spec n : forall b met flg, binv b met flg ->
    exists met' flg' nu, sweeps (S n) d rt hg m s b met flg = Ret (met', flg', nu) /\ alen met' = alen met /\ I (aget met') /\ 0 <= nu /\
      (nu = 0 -> forall q t, gedge d m q t -> aget s q = 0 -> aget s t = 0 -> allowed (aget met') q t) /\
      (0 < nu -> b - base0 + Z.of_nat (S n) < g_np m).
  Proof.
    induction n as [|n IH]; intros b met flg [LM LF LE OLD CH HI].
    all: assert (S0 : sinv (b + 1) [] (met, flg, 0)).
    1,3: apply start_inv; constructor; assumption.
    all: destruct (sweep_spec (b + 1) _ S0) as ([[met1 flg1] nu1] & E1 & SI).
    all: destruct SI as [LM1 LF1 NU1 LE1 NO1 SO1 _ NEW1 CH1 HI1]; cbn [fst snd] in *.
    all: assert (AL : nu1 = 0 -> forall q t, gedge d m q t -> aget s q = 0 -> aget s t = 0 -> allowed (aget met1) q t).
    1,3: intros Z q t E Sq St; destruct (gedge_range d m q t W E) as [Rq _]; apply NEW1; auto; apply (edge_pairs d m q t D E).
    all: assert (AS : 0 < nu1 -> b + 1 - base0 < g_np m).
    1,3: intros Z; destruct (SO1 Z) as (p & Hp & Fp); destruct (CH1 p Hp) as (l & ND & Ll & Hl); rewrite Fp in Ll;
      assert (X : Z.of_nat (length (map (fun x => x - 1) (p :: l))) <= Z.max 0 (g_np m));
      [apply NoDup_Z_bound; [apply FinFun.Injective_map_NoDup; [intros x y Exy; lia|exact ND]|];
       intros x Hx; apply in_map_iff in Hx; destruct Hx as (y & <- & [<-|Hy]); [lia|destruct (Hl y Hy); lia]
      |rewrite map_length in X; cbn [length] in X; lia].
    - cbn [sweeps]. rewrite E1. cbn [bind Nat.eqb negb andb]. exists met1, flg1, nu1. split; [reflexivity|]. split; [congruence|].
      split; [exact HI1|]. split; [exact NU1|]. split; [exact AL|]. intros Z. specialize (AS Z). lia.
    - change (sweeps (S (S n)) d rt hg m s b met flg) with (x <- sweep d rt hg m s (b + 1) (met, flg, 0) ;; (let (p, nu) := x in let (met, flg) := p in if (0 <? nu) then sweeps (S n) d rt hg m s (b + 1) met flg else Ret (met, flg, nu))). rewrite E1. cbn [bind].
      destruct (Z.ltb_spec 0 nu1) as [Z|Z].
      + destruct (IH (b + 1) met1 flg1) as (met2 & flg2 & nu2 & E2 & L2 & I2 & N2 & A2 & S2).
        { constructor; auto. intros q t E Sq St Fq. apply NEW1; auto. apply (edge_pairs d m q t D E). }
        exists met2, flg2, nu2. split; [exact E2|]. split; [congruence|]. split; [exact I2|]. split; [exact N2|]. split; [exact A2|].
        intros Y. specialize (S2 Y). lia.
      + exists met1, flg1, nu1. split; [reflexivity|]. split; [congruence|]. split; [exact HI1|]. split; [exact NU1|]. split; [exact AL|]. lia.
  Qed.
End Sweep.
