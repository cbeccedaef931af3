(** Proofs about [TriHash]: an edge of a triangle is handled as the number
    [3*k+i], its slot. *)
From Coq Require Import ZArith List Bool Lia.
From Verif Require Import CBase HashModel HashSpec HashInv HashOps HashCorrect SurfModel SurfProofs TriHash.
Import ListNotations.
Open Scope Z_scope.

Ltac sp := repeat match goal with |- _ /\ _ => split end.

Lemma slot_eq e : e = 3 * (e / 3) + e mod 3.
Proof. apply Z.div_mod. lia. Qed.

Lemma slot_eqb e k i : in3 i -> (e =? 3 * k + i) = (e / 3 =? k) && (e mod 3 =? i).
Proof.
  intros Hi. destruct (Z.eqb_spec e (3 * k + i)) as [-> | N].
  - rewrite div3, mod3 by exact Hi. rewrite !Z.eqb_refl. reflexivity.
  - symmetry. apply andb_false_iff. rewrite !Z.eqb_neq.
    destruct (Z.eq_dec (e / 3) k) as [E1 | N1]; [right | left; exact N1].
    intros E2. apply N. rewrite (slot_eq e), E1, E2. reflexivity.
Qed.

(** Views of the triangles by slots. *)
Definition sa (a : arr stri) (e : Z) : Z := s_adj (aget a (e / 3)) (e mod 3).
Definition sg (a : arr stri) (e : Z) : Z := s_tag (aget a (e / 3)) (e mod 3).
Definition sP (a : arr stri) (e : Z) : Z := s_v (aget a (e / 3)) (nx (e mod 3)).
Definition sQ (a : arr stri) (e : Z) : Z := s_v (aget a (e / 3)) (pv (e mod 3)).
Definition sO (a : arr stri) (e : Z) : Z := s_v (aget a (e / 3)) (e mod 3).

(** What the edges do not change. *)
Record same (a a' : arr stri) : Prop := {
  m_len : alen a' = alen a;
  m_v : forall k, s_v (aget a' k) = s_v (aget a k);
  m_edg : forall k, s_edg (aget a' k) = s_edg (aget a k);
  m_ref : forall k, s_ref (aget a' k) = s_ref (aget a k);
  m_cc : forall k, s_cc (aget a' k) = s_cc (aget a k);
  m_flag : forall k, s_flag (aget a' k) = s_flag (aget a k);
  m_base : forall k, s_base (aget a' k) = s_base (aget a k)
}.

Lemma same_refl a : same a a.
Proof. constructor; reflexivity. Qed.
Lemma same_trans a b c : same a b -> same b c -> same a c.
Proof.
  intros [A1 A2 A3 A4 A5 A6 A7] [B1 B2 B3 B4 B5 B6 B7]. constructor; intros; congruence.
Qed.

Lemma chg_ok a k f : 0 <= k < alen a ->
  chg a k f = Ret (mkArr (alen a) (upd (aget a) k (f (aget a k)))).
Proof. intros H. unfold chg. rewrite rd_ok by exact H. cbn [bind]. apply wr_ok. exact H. Qed.

Lemma chg_adj a k i x : 0 <= k < alen a -> in3 i ->
  exists a', chg a k (set_adj i x) = Ret a' /\ same a a' /\
    (forall e, sa a' e = if e =? 3 * k + i then x else sa a e) /\ (forall e, sg a' e = sg a e).
Proof.
  intros Hk Hi. eexists. split; [apply chg_ok; exact Hk|]. split; [|split].
  - constructor; cbn; try reflexivity; intros k'; unfold upd; destruct (Z.eqb_spec k' k) as [-> | N]; reflexivity.
  - intros e. rewrite slot_eqb by exact Hi. unfold sa. cbn [aget]. unfold upd at 1.
    destruct (Z.eqb_spec (e / 3) k) as [-> | N]; [|reflexivity]. cbn [s_adj set_adj andb]. reflexivity.
  - intros e. unfold sg. cbn [aget]. unfold upd. destruct (Z.eqb_spec (e / 3) k) as [-> | N]; reflexivity.
Qed.

Lemma chg_tag a k i b : 0 <= k < alen a -> in3 i ->
  exists a', chg a k (or_tag i b) = Ret a' /\ same a a' /\
    (forall e, sg a' e = if e =? 3 * k + i then Z.lor (sg a e) b else sg a e) /\ (forall e, sa a' e = sa a e).
Proof.
  intros Hk Hi. eexists. split; [apply chg_ok; exact Hk|]. split; [|split].
  - constructor; cbn; try reflexivity; intros k'; unfold upd; destruct (Z.eqb_spec k' k) as [-> | N]; reflexivity.
  - intros e. rewrite slot_eqb by exact Hi. unfold sg. cbn [aget]. unfold upd at 1.
    destruct (Z.eqb_spec (e / 3) k) as [-> | N]; [|reflexivity]. cbn [s_tag or_tag andb].
    unfold upd. destruct (Z.eqb_spec (e mod 3) i) as [-> | N]; reflexivity.
  - intros e. unfold sa. cbn [aget]. unfold upd. destruct (Z.eqb_spec (e / 3) k) as [-> | N]; reflexivity.
Qed.

(** The same with slots. *)
Lemma chg_adj_s a e x : 0 <= e / 3 < alen a ->
  exists a', chg a (e / 3) (set_adj (e mod 3) x) = Ret a' /\ same a a' /\
    (forall e', sa a' e' = if e' =? e then x else sa a e') /\ (forall e', sg a' e' = sg a e').
Proof.
  intros H. destruct (chg_adj a (e / 3) (e mod 3) x H (in3_mod e)) as (a' & E & S & A & G).
  exists a'. split; [exact E|]. split; [exact S|]. split; [|exact G].
  intros e'. rewrite A, <- slot_eq. reflexivity.
Qed.
Lemma chg_tag_s a e b : 0 <= e / 3 < alen a ->
  exists a', chg a (e / 3) (or_tag (e mod 3) b) = Ret a' /\ same a a' /\
    (forall e', sg a' e' = if e' =? e then Z.lor (sg a e') b else sg a e') /\ (forall e', sa a' e' = sa a e').
Proof.
  intros H. destruct (chg_tag a (e / 3) (e mod 3) b H (in3_mod e)) as (a' & E & S & G & A).
  exists a'. split; [exact E|]. split; [exact S|]. split; [|exact A].
  intros e'. rewrite G, <- slot_eq. reflexivity.
Qed.

Lemma erep_sym h M a b x y : erep h M -> same_edge a b x y = true -> M a b = M x y.
Proof.
  intros [_ H] E. apply same_edge_key in E.
  destruct (M a b) as [k|] eqn:E1; destruct (M x y) as [k'|] eqn:E2; try reflexivity.
  - apply H in E1. rewrite <- E in E1. apply H in E1. congruence.
  - apply H in E1. rewrite <- E in E1. apply H in E1. congruence.
  - apply H in E2. rewrite E in E2. apply H in E2. congruence.
Qed.

Lemma same_edge_sym a b x y : same_edge a b x y = true -> same_edge x y a b = true.
Proof. rewrite !same_edge_key. congruence. Qed.
Lemma same_edge_trans a b x y u v :
  same_edge a b x y = true -> same_edge x y u v = true -> same_edge a b u v = true.
Proof. rewrite !same_edge_key. congruence. Qed.
Lemma same_edge_refl a b : same_edge a b a b = true.
Proof. rewrite same_edge_key. reflexivity. Qed.

Lemma lookup h M x y : erep h M -> 0 < x -> 0 < y ->
  hashGet h x y = Ret (match M x y with Some v => v | None => 0 end).
Proof.
  intros R Hx Hy. destruct (estep_ok h M (EGet x y) R (conj Hx Hy)) as (v & h' & E & C).
  cbn [estep] in E. destruct (hashGet h x y) as [w|] eqn:G; cbn [bind] in E; [|discriminate].
  inversion E; subst. destruct C as [[-> _] | [F _]]; [|destruct F].
  cbn [espec]. destruct (M x y); reflexivity.
Qed.

Lemma insert h M x y k g : erep h M -> 0 < x -> 0 < y -> M x y = None ->
  exists r h', hashEdge g h x y k = Ret (r, h') /\
    ((r = 0 /\ g < 1) \/ (r = 2 /\ erep h' (eput M x y k))).
Proof.
  intros R Hx Hy N. destruct (estep_ok h M (EIns x y k g) R (conj Hx Hy)) as (v & h' & E & C).
  exists v, h'. split; [exact E|]. cbn [espec] in C. rewrite N in C. cbn [fst snd] in C.
  destruct C as [[-> C] | [[F _] [-> _]]]; auto.
Qed.

(** ** Without duplicates *)
Section NoDup.
Variable nt : Z.
Variable iso : bool.
Variable isoref : Z.
Variable base : Z.
Variable gr : Z -> Z.
Variable a0 : arr stri.

(** The slots of the triangles in use, and those that are put in the table. *)
Definition US (e : Z) : Prop := ok nt a0 (e / 3).
Definition HS (e : Z) : Prop := US e /\ par_only (sg a0 e) = false.
Definition sE (e e' : Z) : Prop := same_edge (sP a0 e) (sQ a0 e) (sP a0 e') (sQ a0 e') = true.

Hypothesis Hlen : alen a0 = nt + 1.
Hypothesis Hpos : forall k i, ok nt a0 k -> in3 i -> 0 < s_v (aget a0 k) i.
Hypothesis Hz : forall e, US e -> sa a0 e = 0.
Hypothesis Hdup : forall e e', US e -> US e' -> sE e e' -> sO a0 e = sO a0 e' -> e = e'.

Lemma sE_sym e e' : sE e e' -> sE e' e.
Proof. apply same_edge_sym. Qed.
Lemma sE_trans e e' e'' : sE e e' -> sE e' e'' -> sE e e''.
Proof. apply same_edge_trans. Qed.
Lemma sE_refl e : sE e e.
Proof. apply same_edge_refl. Qed.

Lemma US_rng e : US e -> 3 <= e < 3 * nt + 3 /\ 0 <= e / 3 < alen a0.
Proof.
  intros [H _]. rewrite Hlen. pose proof (slot_eq e) as Q. pose proof (in3_mod e) as I. unfold in3 in I.
  clear - H Q I. lia.
Qed.

Lemma US_P e : US e -> 0 < sP a0 e.
Proof. intros H. apply Hpos; [exact H | apply in3_nx, in3_mod]. Qed.
Lemma US_Q e : US e -> 0 < sQ a0 e.
Proof. intros H. apply Hpos; [exact H | apply in3_pv, in3_mod]. Qed.

Definition three (D : Z -> Prop) (e : Z) : Prop :=
  exists e1 e2, D e1 /\ D e2 /\ e1 <> e /\ e2 <> e /\ e1 <> e2 /\ sE e e1 /\ sE e e2.

(** What the two loops keep. *)
Record kept (a a' : arr stri) : Prop := {
  p_len : alen a' = alen a;
  p_v : forall k, s_v (aget a' k) = s_v (aget a k);
  p_edg : forall k, s_edg (aget a' k) = s_edg (aget a k);
  p_ref : forall k, s_ref (aget a' k) = s_ref (aget a k);
  p_cc : forall k, s_cc (aget a' k) = s_cc (aget a k)
}.
Lemma same_kept a b c : kept a b -> same b c -> kept a c.
Proof. intros [A1 A2 A3 A4 A5] [B1 B2 B3 B4 B5 B6 B7]. constructor; intros; congruence. Qed.

(** The slots of [D] have been dealt with. *)
Record J (D : Z -> Prop) (a : arr stri) (M : emap) : Prop := {
  j_kept : kept a0 a;
  j_sub : forall e, D e -> HS e;
  j_tab : forall x y f, M x y = Some f -> D f /\ same_edge (sP a0 f) (sQ a0 f) x y = true;
  j_in : forall e, D e -> exists f, M (sP a0 e) (sQ a0 e) = Some f;
  j_zero : forall e, US e -> ~ D e -> sa a e = 0;
  j_first : forall f, M (sP a0 f) (sQ a0 f) = Some f ->
     (sa a f = 0 /\ forall e, D e -> sE f e -> e = f) \/
     (exists g, sa a f = g /\ D g /\ g <> f /\ sE f g /\ sa a g = f /\
        forall e, D e -> sE f e -> e = f \/ e = g \/ sa a e = 0);
  j_nom : exists nom : Z -> bool,
     (forall e, sg a e = if nom e then Z.lor (sg a0 e) T_NOM else sg a0 e) /\
     (forall e, nom e = true <-> D e /\ three D e)
}.

Lemma J_ext D D' a M : (forall e, D e <-> D' e) -> J D a M -> J D' a M.
Proof.
  intros X [A1 A2 A3 A4 A5 A6 A7]. constructor.
  - exact A1.
  - intros e H. apply A2, X, H.
  - intros x y f H. destruct (A3 x y f H) as [B C]. split; [apply X; exact B | exact C].
  - intros e H. apply A4, X, H.
  - intros e H N. apply A5; [exact H|]. intros C. apply N, X, C.
  - intros f H. destruct (A6 f H) as [[B C] | (g & B & C & C1 & C2 & C3 & C4)].
    + left. split; [exact B|]. intros e H1. apply C, X, H1.
    + right. exists g. sp; auto. apply X; exact C. intros e H1. apply C4, X, H1.
  - destruct A7 as (nom & B & C). exists nom. split; [exact B|]. intros e. rewrite (C e).
    split; intros [H (e1 & e2 & H1 & H2 & R)]; (split; [apply X; exact H | exists e1, e2; split; [apply X; exact H1 | split; [apply X; exact H2 | exact R]]]).
Qed.

Lemma J_same D a a' M : J D a M -> kept a0 a' -> (forall e, sa a' e = sa a e) -> (forall e, sg a' e = sg a e) -> J D a' M.
Proof.
  intros [A1 A2 A3 A4 A5 A6 A7] S EA EG. constructor.
  - exact S.
  - exact A2.
  - exact A3.
  - exact A4.
  - intros e H N. rewrite EA. auto.
  - intros f H. rewrite EA. destruct (A6 f H) as [[B C] | (g & B & C & C1 & C2 & C3 & C4)]; [left; auto|].
    right. exists g. rewrite EA. sp; auto. intros e H1 H2. rewrite EA. auto.
  - destruct A7 as (nom & B & C). exists nom. split; [|exact C]. intros e. rewrite EG. apply B.
Qed.

Definition plus (D : Z -> Prop) (s : Z) (e : Z) : Prop := D e \/ e = s.

(** A new edge. *)
Lemma J_new D a M h s :
  J D a M -> erep h M -> HS s -> ~ D s -> M (sP a0 s) (sQ a0 s) = None ->
  J (plus D s) a (eput M (sP a0 s) (sQ a0 s) s).
Proof.
  intros [A1 A2 A3 A4 A5 A6 A7] R Hs Ns N.
  assert (X : forall e, D e -> ~ sE s e).
  { intros e He C. destruct (A4 e He) as [f Hf].
    rewrite (erep_sym _ _ _ _ _ _ R C) in N. congruence. }
  assert (T : forall e, D e -> (three (plus D s) e <-> three D e)).
  { intros e He. split; intros (e1 & e2 & H1 & H2 & K1 & K2 & K3 & K4 & K5); exists e1, e2.
    - destruct H1 as [H1 | ->]; [|exfalso; apply (X e He), sE_sym, K4].
      destruct H2 as [H2 | ->]; [|exfalso; apply (X e He), sE_sym, K5]. sp; assumption.
    - unfold plus. sp; auto. }
  constructor.
  - exact A1.
  - intros e [H | ->]; auto.
  - intros x y f. unfold eput. destruct (same_edge (sP a0 s) (sQ a0 s) x y) eqn:E.
    + intros H. inversion H; subst. split; [right; reflexivity | exact E].
    + intros H. destruct (A3 x y f H). split; [left; assumption | assumption].
  - intros e [H | ->]; unfold eput.
    + destruct (same_edge _ _ (sP a0 e) (sQ a0 e)); [eauto | apply A4, H].
    + rewrite same_edge_refl. eauto.
  - intros e H Ne. apply A5; [exact H|]. intros C. apply Ne. left. exact C.
  - intros f. unfold eput. destruct (same_edge (sP a0 s) (sQ a0 s) (sP a0 f) (sQ a0 f)) eqn:E.
    + intros H. inversion H; subst f. left. split; [apply A5; [apply Hs | exact Ns]|].
      intros e [He | ->] Hse; [destruct (X e He Hse) | reflexivity].
    + intros H. destruct (A6 f H) as [[B C] | (g & B & C & C1 & C2 & C3 & C4)].
      * left. split; [exact B|]. intros e [He | ->] Hse; [auto|].
        exfalso. apply same_edge_sym in Hse. unfold sE in Hse. congruence.
      * right. exists g. sp; auto. left. exact C.
        intros e [He | ->] Hse; [auto|]. exfalso. apply same_edge_sym in Hse. congruence.
  - destruct A7 as (nom & B & C). exists nom. split; [exact B|]. intros e. rewrite C. split.
    + intros [He T1]. split; [left; exact He | apply T; assumption].
    + intros [[He | ->] T1]; [split; [exact He | apply T; assumption]|].
      exfalso. destruct T1 as (e1 & e2 & [H1 | H1] & H2 & K1 & K2 & K3 & K4 & K5); [|congruence].
      exact (X e1 H1 K4).
Qed.

(** The second triangle of an edge. *)
Lemma J_second D a M h s f a' :
  J D a M -> erep h M -> HS s -> ~ D s -> M (sP a0 s) (sQ a0 s) = Some f -> sa a f = 0 ->
  same a a' -> (forall e, sa a' e = if e =? f then s else if e =? s then f else sa a e) ->
  (forall e, sg a' e = sg a e) ->
  J (plus D s) a' M.
Proof.
  intros HJ R Hs Ns E Zf Sm EA EG. destruct HJ as [A1 A2 A3 A4 A5 A6 A7].
  destruct (A3 _ _ _ E) as [Df Sf]. fold (sE f s) in Sf.
  assert (Nf : f <> s) by (intros ->; contradiction).
  assert (Mf : M (sP a0 f) (sQ a0 f) = Some f) by (rewrite (erep_sym _ _ _ _ _ _ R Sf); exact E).
  assert (Only : forall e, D e -> sE f e -> e = f).
  { destruct (A6 f Mf) as [[_ O] | (g & B & C & _)]; [exact O|].
    exfalso. destruct (US_rng g) as [? _]; [apply A2, C|]. lia. }
  assert (Nz3 : ~ (exists e, three (plus D s) e /\ plus D s e /\ sE f e)).
  { intros (e & (e1 & e2 & H1 & H2 & K1 & K2 & K3 & K4 & K5) & He & Hfe).
    assert (Y : forall x, plus D s x -> sE e x -> x = f \/ x = s).
    { intros x [Hx | ->] Hex; [left; apply Only; [exact Hx | eapply sE_trans; eauto] | right; reflexivity]. }
    destruct (Y e He (sE_refl e)), (Y e1 H1 K4), (Y e2 H2 K5); congruence. }
  constructor.
  - eapply same_kept; eauto.
  - intros e [H | ->]; auto.
  - intros x y f' H. destruct (A3 _ _ _ H). split; [left|]; assumption.
  - intros e [H | ->]; eauto.
  - intros e H Ne. rewrite EA.
    destruct (Z.eqb_spec e f) as [-> | N1]; [exfalso; apply Ne; left; exact Df|].
    destruct (Z.eqb_spec e s) as [-> | N2]; [exfalso; apply Ne; right; reflexivity|].
    apply A5; [exact H|]. intros C. apply Ne. left. exact C.
  - intros f' H. destruct (Z.eq_dec f' f) as [-> | N].
    + right. exists s. rewrite !EA, !Z.eqb_refl. replace (s =? f) with false by lia.
      sp; auto. right; reflexivity.
      intros e [He | ->] Hfe; [left; apply Only; assumption | right; left; reflexivity].
    + destruct (A3 _ _ _ H) as [Df' _].
      assert (NE : ~ sE f' f) by (intros C; rewrite (erep_sym _ _ _ _ _ _ R C) in H; congruence).
      assert (N' : f' <> s) by (intros ->; contradiction).
      assert (V : forall e, sE f' e -> sa a' e = sa a e).
      { intros e He. rewrite EA. destruct (Z.eqb_spec e f) as [-> | ]; [contradiction|].
        destruct (Z.eqb_spec e s) as [-> | ]; [|reflexivity].
        exfalso. apply NE. eapply sE_trans; [exact He | apply sE_sym, Sf]. }
      assert (W : forall e, plus D s e -> sE f' e -> D e).
      { intros e [He | ->] Hs'; [exact He|]. exfalso. apply NE. eapply sE_trans; [exact Hs' | apply sE_sym, Sf]. }
      rewrite (V f' (sE_refl f')).
      destruct (A6 f' H) as [[B C] | (g & B & C & C1 & C2 & C3 & C4)].
      * left. split; [exact B|]. intros e He Hs'. apply C; [apply W; assumption | exact Hs'].
      * right. exists g. rewrite (V g C2). sp; auto. left; exact C.
        intros e He Hs'. rewrite (V e Hs'). apply C4; [apply W; assumption | exact Hs'].
  - destruct A7 as (nom & B & C). exists nom. split; [intros e; rewrite EG; apply B|].
    intros e. rewrite C. split.
    + intros [He (e1 & e2 & H1 & H2 & K)]. split; [left; exact He|]. exists e1, e2. unfold plus. tauto.
    + intros [He T].
      assert (NE : ~ sE f e) by (intros Q; apply Nz3; exists e; auto).
      assert (W : forall x, plus D s x -> sE e x -> D x).
      { intros x [Hx | ->] Hex; [exact Hx|]. exfalso. apply NE. eapply sE_trans; [exact Sf | apply sE_sym, Hex]. }
      split; [apply W; [exact He | apply sE_refl]|].
      destruct T as (e1 & e2 & H1 & H2 & K1 & K2 & K3 & K4 & K5). exists e1, e2.
      sp; auto.
Qed.

(** A third triangle; [swap] when it takes the place of the second. *)
Lemma J_third D a M h s f g (swap : bool) a' :
  J D a M -> erep h M -> HS s -> ~ D s -> M (sP a0 s) (sQ a0 s) = Some f -> sa a f = g -> g <> 0 ->
  same a a' ->
  (forall e, sa a' e = if swap then (if e =? f then s else if e =? s then f else if e =? g then 0 else sa a e)
                       else sa a e) ->
  (forall e, sg a' e = if (e =? s) || (e =? f) || (e =? g) then Z.lor (sg a e) T_NOM else sg a e) ->
  J (plus D s) a' M.
Proof.
  intros HJ R Hs Ns E Ef Ng Sm EA EG. destruct HJ as [A1 A2 A3 A4 A5 A6 A7].
  destruct (A3 _ _ _ E) as [Df Sf]. fold (sE f s) in Sf.
  assert (Nf : f <> s) by (intros ->; contradiction).
  assert (Mf : M (sP a0 f) (sQ a0 f) = Some f) by (rewrite (erep_sym _ _ _ _ _ _ R Sf); exact E).
  destruct (A6 f Mf) as [[Zf _] | (g' & B & Dg & Ngf & Sg & Bg & Rest)]; [congruence|].
  rewrite Ef in B; subst g'.
  assert (Nsg : g <> s) by (intros Q; apply Ns; rewrite <- Q; exact Dg).
  assert (Zs : sa a s = 0) by (apply A5; [apply Hs | exact Ns]).
  assert (OnE : forall e, (e = s \/ e = f \/ e = g) -> plus D s e /\ sE f e).
  { intros e [-> | [-> | ->]]; (split; [unfold plus; tauto|]); auto using sE_refl. }
  constructor.
  - eapply same_kept; eauto.
  - intros e [H | ->]; auto.
  - intros x y f' H. destruct (A3 _ _ _ H). split; [left|]; assumption.
  - intros e [H | ->]; eauto.
  - intros e H Ne. rewrite EA.
    assert (e <> f /\ e <> s /\ e <> g) as (N1 & N2 & N3).
    { sp; intros ->; apply Ne; unfold plus; auto. }
    replace (e =? f) with false by lia. replace (e =? s) with false by lia. replace (e =? g) with false by lia.
    assert (sa a e = 0) by (apply A5; [exact H|]; intros C; apply Ne; left; exact C).
    destruct swap; assumption.
  - intros f' H. destruct (Z.eq_dec f' f) as [-> | N].
    + right. destruct swap.
      * exists s. rewrite !EA, !Z.eqb_refl. replace (s =? f) with false by lia.
        sp; auto. right; reflexivity.
        intros e [He | ->] Hfe; [|right; left; reflexivity].
        rewrite EA. destruct (Z.eqb_spec e f) as [-> | Nef]; [left; reflexivity|].
        destruct (Z.eqb_spec e s) as [-> | Nes]; [right; left; reflexivity|].
        destruct (Z.eqb_spec e g) as [-> | Neg]; [right; right; reflexivity|].
        destruct (Rest e He Hfe) as [Q | [Q | Q]]; [contradiction | contradiction | right; right; exact Q].
      * exists g. rewrite !EA. sp; auto. left; exact Dg.
        intros e [He | ->] Hfe; rewrite EA; [apply Rest; assumption | right; right; exact Zs].
    + destruct (A3 _ _ _ H) as [Df' _].
      assert (NE : ~ sE f' f) by (intros C; rewrite (erep_sym _ _ _ _ _ _ R C) in H; congruence).
      assert (V : forall e, sE f' e -> sa a' e = sa a e).
      { intros e He.
        assert (e <> f /\ e <> s /\ e <> g) as (N1 & N2 & N3).
        { sp; intros ->; apply NE;
            [exact He | eapply sE_trans; [exact He | apply sE_sym; exact Sf]
             | eapply sE_trans; [exact He | apply sE_sym; exact Sg]]. }
        rewrite EA. replace (e =? f) with false by lia. replace (e =? s) with false by lia.
        replace (e =? g) with false by lia. destruct swap; reflexivity. }
      assert (W : forall e, plus D s e -> sE f' e -> D e).
      { intros e [He | ->] Hs'; [exact He|]. exfalso. apply NE. eapply sE_trans; [exact Hs' | apply sE_sym, Sf]. }
      rewrite (V f' (sE_refl f')).
      destruct (A6 f' H) as [[B' C] | (g' & B' & C & C1 & C2 & C3 & C4)].
      * left. split; [exact B'|]. intros e He Hs'. apply C; [apply W; assumption | exact Hs'].
      * right. exists g'. rewrite (V g' C2). sp; auto. left; exact C.
        intros e He Hs'. rewrite (V e Hs'). apply C4; [apply W; assumption | exact Hs'].
  - destruct A7 as (nom & Bn & C).
    exists (fun e => (e =? s) || (e =? f) || (e =? g) || nom e). split.
    + intros e. rewrite EG, Bn. destruct ((e =? s) || (e =? f) || (e =? g)); cbn [orb]; [|reflexivity].
      destruct (nom e); [|reflexivity]. rewrite <- Z.lor_assoc. reflexivity.
    + intros e. split.
      * intros H.
        assert (D3 : e = s \/ e = f \/ e = g \/ nom e = true).
        { apply orb_prop in H. destruct H as [H | H]; [|tauto].
          apply orb_prop in H. destruct H as [H | H]; [|apply Z.eqb_eq in H; tauto].
          apply orb_prop in H. destruct H as [H | H]; apply Z.eqb_eq in H; tauto. }
        clear H. destruct D3 as [-> | [-> | [-> | H]]].
        -- split; [right; reflexivity|]. exists f, g. unfold plus. sp; auto using sE_sym.
           eapply sE_trans; [apply sE_sym; exact Sf | exact Sg].
        -- split; [left; exact Df|]. exists s, g. unfold plus. sp; auto.
        -- split; [left; exact Dg|]. exists s, f. unfold plus. sp; auto using sE_sym.
           eapply sE_trans; [apply sE_sym; exact Sg | exact Sf].
        -- apply C in H. destruct H as [He (e1 & e2 & H1 & H2 & K)].
           split; [left; exact He|]. exists e1, e2. unfold plus. tauto.
      * intros [He T]. 
        destruct (Z.eqb_spec e s) as [-> | Nes]; [reflexivity|].
        destruct (Z.eqb_spec e f) as [-> | Nef]; [reflexivity|].
        destruct (Z.eqb_spec e g) as [-> | Neg]; [reflexivity|]. cbn [orb].
        apply C. destruct He as [He | He]; [|contradiction]. split; [exact He|].
        destruct T as (e1 & e2 & H1 & H2 & K1 & K2 & K3 & K4 & K5).
        destruct H1 as [H1 | ->].
        -- destruct H2 as [H2 | ->]; [exists e1, e2; tauto|].
           exists f, g. sp; auto.
           ++ apply sE_sym. eapply sE_trans; [exact Sf | apply sE_sym, K5].
           ++ apply sE_sym. eapply sE_trans; [apply sE_sym, Sg |].
              eapply sE_trans; [exact Sf | apply sE_sym, K5].
        -- exists f, g. sp; auto.
           ++ apply sE_sym. eapply sE_trans; [exact Sf | apply sE_sym, K4].
           ++ apply sE_sym. eapply sE_trans; [apply sE_sym, Sg |].
              eapply sE_trans; [exact Sf | apply sE_sym, K4].
Qed.

Lemma kept_used a e : kept a0 a -> US e -> s_eok (aget a (e / 3)) = true.
Proof. intros K [_ H]. unfold s_eok in *. rewrite (p_v _ _ K). exact H. Qed.

(** [meet] on a slot. *)
Lemma meet_ok D a M h s f :
  J D a M -> erep h M -> HS s -> ~ D s -> M (sP a0 s) (sQ a0 s) = Some f ->
  exists a', meet iso isoref (s / 3) (s mod 3) f a = Ret a' /\ same a a' /\ J (plus D s) a' M.
Proof.
  intros HJ R Hs Ns E. pose proof (j_kept _ _ _ HJ) as K.
  destruct (j_tab _ _ _ HJ _ _ _ E) as [Df Sf]. fold (sE f s) in Sf.
  pose proof (j_sub _ _ _ HJ f Df) as Hf.
  destruct (US_rng s (proj1 Hs)) as [Rs Ls]. destruct (US_rng f (proj1 Hf)) as [Rf Lf].
  assert (Nf : f <> s) by (intros ->; contradiction).
  assert (Zs : sa a s = 0) by (apply (j_zero _ _ _ HJ); [apply Hs | exact Ns]).
  assert (Len : alen a = alen a0) by apply K.
  unfold meet. rewrite (@rd_ok _ a (s / 3)) by (rewrite Len; exact Ls). cbn [bind].
  rewrite (@rd_ok _ a (f / 3)) by (rewrite Len; exact Lf). cbn [bind].
  rewrite (p_v _ _ K), (p_v _ _ K). fold (sO a0 f) (sO a0 s).
  destruct (Z.eqb_spec (sO a0 f) (sO a0 s)) as [Q | _].
  { exfalso. apply Nf. apply Hdup; [apply Hf | apply Hs | exact Sf | exact Q]. }
  fold (sa a f) (sa a s). rewrite <- (slot_eq s), <- (slot_eq f).
  destruct (Z.eqb_spec (sa a f) 0) as [Zf | Nz].
  - destruct (chg_adj_s a s f) as (a1 & E1 & S1 & P1 & G1); [rewrite Len; exact Ls|].
    rewrite E1. cbn [bind].
    destruct (chg_adj_s a1 f s) as (a2 & E2 & S2 & P2 & G2); [rewrite (m_len _ _ S1), Len; exact Lf|].
    exists a2. split; [exact E2|]. pose proof (same_trans _ _ _ S1 S2) as S. split; [exact S|].
    eapply J_second; eauto.
    + intros e. rewrite P2, P1. reflexivity.
    + intros e. rewrite G2, G1. reflexivity.
  - replace (sa a s =? f) with false by lia.
    remember (sa a f) as g eqn:Eg.
    assert (Mf : M (sP a0 f) (sQ a0 f) = Some f) by (rewrite (erep_sym _ _ _ _ _ _ R Sf); exact E).
    destruct (j_first _ _ _ HJ f Mf) as [[Zf _] | (g' & B & Dg & Ngf & Sg & Bg & Rest)]; [congruence|].
    rewrite <- Eg in B; subst g'.
    assert (Nsg : g <> s) by (intros Q; apply Ns; rewrite <- Q; exact Dg).
    pose proof (j_sub _ _ _ HJ g Dg) as Hg. destruct (US_rng g (proj1 Hg)) as [Rg Lg].
    assert (X : exists (swap : bool) a1,
      (if iso && ((s_ref (aget a (s / 3)) =? isoref) || (s_ref (aget a (s / 3)) <? 0)) then
            a <- chg a (g / 3) (set_adj (g mod 3) 0) ;;
            a <- chg a (s / 3) (set_adj (s mod 3) f) ;;
            chg a (f / 3) (set_adj (f mod 3) s)
          else Ret a) = Ret a1 /\ same a a1 /\ (forall e, sg a1 e = sg a e) /\
      (forall e, sa a1 e = if swap then (if e =? f then s else if e =? s then f else if e =? g then 0 else sa a e)
                       else sa a e)).
    { destruct (iso && _).
      - destruct (chg_adj_s a g 0) as (a1 & E1 & S1 & P1 & G1); [rewrite Len; exact Lg|]. rewrite E1. cbn [bind].
        destruct (chg_adj_s a1 s f) as (a2 & E2 & S2 & P2 & G2); [rewrite (m_len _ _ S1), Len; exact Ls|].
        rewrite E2. cbn [bind].
        destruct (chg_adj_s a2 f s) as (a3 & E3 & S3 & P3 & G3);
          [rewrite (m_len _ _ S2), (m_len _ _ S1), Len; exact Lf|].
        exists true, a3. split; [exact E3|]. split; [eauto using same_trans|].
        split; intros e; [rewrite G3, G2, G1 | rewrite P3, P2, P1]; reflexivity.
      - exists false, a. split; [reflexivity|]. split; [apply same_refl|]. split; reflexivity. }
    destruct X as (swap & a1 & E1 & S1 & G1 & P1). rewrite E1. cbn [bind].
    destruct (chg_tag_s a1 s T_NOM) as (a2 & E2 & S2 & G2 & P2); [rewrite (m_len _ _ S1), Len; exact Ls|].
    rewrite E2. cbn [bind].
    destruct (chg_tag_s a2 f T_NOM) as (a3 & E3 & S3 & G3 & P3);
      [rewrite (m_len _ _ S2), (m_len _ _ S1), Len; exact Lf|].
    rewrite E3. cbn [bind].
    destruct (chg_tag_s a3 g T_NOM) as (a4 & E4 & S4 & G4 & P4);
      [rewrite (m_len _ _ S3), (m_len _ _ S2), (m_len _ _ S1), Len; exact Lg|].
    exists a4. split; [exact E4|].
    assert (S : same a a4) by eauto using same_trans. split; [exact S|].
    eapply (J_third D a M h s f g swap); eauto.
    + intros e. rewrite P4, P3, P2, P1. reflexivity.
    + intros e. rewrite G4, G3, G2, G1.
      destruct (Z.eqb_spec e g), (Z.eqb_spec e f), (Z.eqb_spec e s); subst; try congruence; reflexivity.
Qed.

(** One edge. *)
Lemma hedge_ok D a M h s :
  J D a M -> erep h M -> US s -> ~ D s ->
  exists o, hedge iso isoref gr (s / 3) (s mod 3) (Some (a, h)) = Ret o /\
    match o with
    | None => exists e, gr e < 1
    | Some (a', h') => same a a' /\ exists M', erep h' M' /\
        J (fun e => D e \/ (e = s /\ HS s)) a' M'
    end.
Proof.
  intros HJ R Hs Ns. pose proof (j_kept _ _ _ HJ) as K.
  destruct (US_rng s Hs) as [Rs Ls]. unfold hedge.
  rewrite (@rd_ok _ a (s / 3)) by (rewrite (p_len _ _ K); exact Ls). cbn [bind].
  rewrite (kept_used a s K Hs). cbn [negb]. fold (sg a s).
  assert (G : sg a s = sg a0 s).
  { destruct (j_nom _ _ _ HJ) as (nom & B & C). rewrite B. destruct (nom s) eqn:Q; [|reflexivity].
    apply C in Q. destruct Q. contradiction. }
  rewrite G. destruct (par_only (sg a0 s)) eqn:Ep.
  - eexists. split; [reflexivity|]. cbn beta iota. split; [apply same_refl|]. exists M. split; [exact R|].
    eapply J_ext; [|exact HJ]. intros e. unfold HS. rewrite Ep. intuition discriminate.
  - assert (HHs : HS s) by (split; assumption).
    rewrite !(p_v _ _ K). fold (sP a0 s) (sQ a0 s).
    rewrite (lookup h M _ _ R (US_P s Hs) (US_Q s Hs)). cbn [bind].
    destruct (M (sP a0 s) (sQ a0 s)) as [f|] eqn:E.
    + destruct (j_tab _ _ _ HJ _ _ _ E) as [Df _].
      destruct (US_rng f (proj1 (j_sub _ _ _ HJ f Df))) as [Rf _].
      replace (f =? 0) with false by lia.
      destruct (meet_ok D a M h s f HJ R HHs Ns E) as (a' & E1 & S1 & J1). rewrite E1. cbn [bind].
      eexists. split; [reflexivity|]. cbn beta iota. split; [exact S1|]. exists M. split; [exact R|].
      eapply J_ext; [|exact J1]. unfold plus. intros e. tauto.
    + cbn [Z.eqb].
      destruct (insert h M _ _ (3 * (s / 3) + s mod 3) (gr (3 * (s / 3) + s mod 3)) R (US_P s Hs) (US_Q s Hs) E)
        as (r & h' & E1 & C).
      rewrite E1. cbn [bind]. destruct C as [[-> C] | [-> C]].
      * eexists. split; [reflexivity|]. cbn. eauto.
      * eexists. split; [reflexivity|]. cbn beta iota. split; [apply same_refl|]. eexists. split; [exact C|].
        rewrite <- slot_eq. eapply J_ext; [|eapply J_new; eauto]. unfold plus. intros e. tauto.
Qed.

(** The slots of the first [n] triangles. *)
Definition upto (c e : Z) : Prop := HS e /\ e < c.

Lemma hedge_ok' c a M h k i :
  J (upto c) a M -> erep h M -> ok nt a0 k -> in3 i -> c = 3 * k + i ->
  exists o, hedge iso isoref gr k i (Some (a, h)) = Ret o /\
    match o with
    | None => exists e, gr e < 1
    | Some (a', h') => same a a' /\ exists M', erep h' M' /\ J (upto (c + 1)) a' M'
    end.
Proof.
  intros HJ R Hk Hi ->.
  assert (Hs : US (3 * k + i)) by (unfold US; rewrite div3 by exact Hi; exact Hk).
  destruct (hedge_ok _ a M h (3 * k + i) HJ R Hs) as (o & E & C).
  { unfold upto. lia. }
  rewrite div3, mod3 in E by exact Hi. exists o. split; [exact E|].
  destruct o as [[a' h']|]; [|exact C]. destruct C as (S & M' & R' & J').
  split; [exact S|]. exists M'. split; [exact R'|]. eapply J_ext; [|exact J'].
  intros e. unfold upto. split.
  - intros [[H1 H2] | [-> H]]; (split; [assumption | lia]).
  - intros [H1 H2]. destruct (Z.eq_dec e (3 * k + i)) as [-> | N]; [right; auto | left; split; [exact H1 | lia]].
Qed.

Definition marks (k : Z) (a : arr stri) : Prop :=
  forall k', 1 <= k' < k -> ok nt a0 k' -> s_flag (aget a k') = 0 /\ s_base (aget a k') = base.

Definition L1 (k : Z) (o : option (arr stri * htab)) : Prop :=
  match o with
  | None => exists e, gr e < 1
  | Some (a, h) => marks k a /\ exists M, erep h M /\ J (upto (3 * k)) a M
  end.

Lemma htri_ok k o : 1 <= k <= nt -> L1 k o ->
  exists o', htri iso isoref base gr k o = Ret o' /\ L1 (k + 1) o'.
Proof.
  intros Hk H. destruct o as [[a h]|]; cbn [htri].
  2: { exists None. split; [reflexivity | exact H]. }
  destruct H as (Mk & M & R & HJ). pose proof (j_kept _ _ _ HJ) as K.
  assert (La : alen a = nt + 1) by (rewrite (p_len _ _ K); exact Hlen).
  rewrite rd_ok by lia. cbn [bind].
  destruct (s_eok (aget a k)) eqn:Ek; cbn [negb].
  - assert (Hok : ok nt a0 k) by (split; [exact Hk|]; unfold s_eok in *; rewrite (p_v _ _ K) in Ek; exact Ek).
    rewrite chg_ok by lia. cbn [bind].
    remember (mkArr (alen a) (upd (aget a) k (reset base (aget a k)))) as a1 eqn:Ea1.
    assert (W : forall k', s_v (aget a1 k') = s_v (aget a k') /\ s_edg (aget a1 k') = s_edg (aget a k') /\
       s_ref (aget a1 k') = s_ref (aget a k') /\ s_cc (aget a1 k') = s_cc (aget a k') /\
       s_adj (aget a1 k') = s_adj (aget a k') /\ s_tag (aget a1 k') = s_tag (aget a k')).
    { intros k'. rewrite Ea1. cbn [aget]. unfold upd. destruct (Z.eqb_spec k' k) as [-> | N]; sp; reflexivity. }
    assert (J1 : J (upto (3 * k)) a1 M).
    { destruct HJ as [A1 A2 A3 A4 A5 A6 A7].
      assert (EA : forall e, sa a1 e = sa a e) by (intros e; unfold sa; destruct (W (e / 3)) as (_ & _ & _ & _ & -> & _); reflexivity).
      assert (EG : forall e, sg a1 e = sg a e) by (intros e; unfold sg; destruct (W (e / 3)) as (_ & _ & _ & _ & _ & ->); reflexivity).
      apply (J_same _ a); [constructor; assumption | | exact EA | exact EG].
      destruct A1 as [B1 B2 B3 B4 B5].
      constructor; [rewrite Ea1; exact B1 | | | |]; intros k'; destruct (W k') as (W1 & W2 & W3 & W4 & _); congruence. }
    assert (Mk1 : marks (k + 1) a1).
    { intros k' Hk' Ho. rewrite Ea1. cbn [aget]. unfold upd. destruct (Z.eqb_spec k' k) as [-> | N]; [split; reflexivity|].
      apply Mk; [lia | exact Ho]. }
    assert (MkS : forall b, same a1 b -> marks (k + 1) b).
    { intros b S k' Hk' Ho. rewrite (m_flag _ _ S), (m_base _ _ S). apply Mk1; assumption. }
    assert (N3 : forall i, hedge iso isoref gr k i None = Ret None) by reflexivity.
    destruct (hedge_ok' (3 * k) a1 M h k 0 J1 R Hok) as (o1 & E1 & C1); [left; reflexivity | lia |].
    rewrite E1. cbn [bind]. destruct o1 as [[a2 h2]|].
    2: { rewrite N3. cbn [bind]. rewrite N3. exists None. split; [reflexivity | exact C1]. }
    destruct C1 as (S1 & M2 & R2 & J2).
    destruct (hedge_ok' (3 * k + 1) a2 M2 h2 k 1 J2 R2 Hok) as (o2 & E2 & C2); [right; left; reflexivity | lia |].
    rewrite E2. cbn [bind]. destruct o2 as [[a3 h3]|].
    2: { rewrite N3. exists None. split; [reflexivity | exact C2]. }
    destruct C2 as (S2 & M3 & R3 & J3).
    destruct (hedge_ok' (3 * k + 1 + 1) a3 M3 h3 k 2 J3 R3 Hok) as (o3 & E3 & C3); [right; right; reflexivity | lia |].
    rewrite E3. exists o3. split; [reflexivity|]. destruct o3 as [[a4 h4]|]; [|exact C3].
    destruct C3 as (S3 & M4 & R4 & J4). split; [apply MkS; eauto using same_trans|].
    exists M4. split; [exact R4|]. replace (3 * (k + 1)) with (3 * k + 1 + 1 + 1) by lia. exact J4.
  - exists (Some (a, h)). split; [reflexivity|]. split.
    + intros k' Hk' Ho. destruct (Z.eq_dec k' k) as [-> | N]; [|apply Mk; [lia | exact Ho]].
      exfalso. destruct Ho as [_ Ho]. unfold s_eok in *. rewrite (p_v _ _ K) in Ek. congruence.
    + exists M. split; [exact R|]. eapply J_ext; [|exact HJ]. intros e. unfold upto.
      split; intros [H1 H2]; (split; [exact H1|]); [lia|].
      pose proof (slot_eq e). pose proof (in3_mod e) as I3. unfold in3 in I3.
      destruct (Z.eq_dec (e / 3) k) as [Q | N]; [|lia].
      exfalso. destruct H1 as [[_ H1] _]. rewrite Q in H1. unfold s_eok in *. rewrite (p_v _ _ K) in Ek. congruence.
Qed.

Lemma first_loop np : 1 <= np -> 0 <= nt ->
  exists h, htable np = Ret h /\
  exists o, for_range 1 nt (htri iso isoref base gr) (Some (a0, h)) = Ret o /\ L1 (nt + 1) o.
Proof.
  intros Hnp Hnt. destruct (new_rep (np - 1) (371 * np / 100 - 1)) as (h & E & R & _).
  { pose proof (Z.div_le_lower_bound (371 * np) 100 np). lia. }
  exists h. split; [exact E|].
  apply (@for_range_inv _ L1); [lia | |].
  - split; [intros k'; lia|]. exists emap0. split; [exact R|].
    assert (No : forall e, ~ upto (3 * 1) e).
    { intros e [[H _] H1]. apply US_rng in H. lia. }
    constructor.
    + constructor; reflexivity.
    + intros e H. destruct (No e H).
    + intros x y f H. discriminate H.
    + intros e H. destruct (No e H).
    + intros e H _. apply Hz, H.
    + intros f H. discriminate H.
    + exists (fun _ => false). split; [reflexivity|]. intros e. split; [discriminate|].
      intros [H _]. destruct (No e H).
  - intros k o Hk H. apply htri_ok; [lia | exact H].
Qed.

(** ** The second loop *)

(** The edges between processors only. *)
Definition PS (e : Z) : Prop := US e /\ par_only (sg a0 e) = true.

Section Second.
Variable a1 : arr stri.
Variable M : emap.
Variable h : htab.
Hypothesis HJ1 : J HS a1 M.
Hypothesis HR : erep h M.

Definition T_CON : Z := T_BDY + T_PARBDYBDY.

Record L2 (D : Z -> Prop) (a : arr stri) : Prop := {
  l_same : same a1 a;
  l_sa : forall e, sa a e = sa a1 e;
  l_bd : exists bd : Z -> bool,
    (forall e, sg a e = if bd e then Z.lor (sg a1 e) T_CON else sg a1 e) /\
    (forall e, bd e = true <-> HS e /\ (M (sP a0 e) (sQ a0 e) = Some e \/ sa a1 e <> 0) /\
       exists s, D s /\ PS s /\ sE s e)
}.

Lemma L2_ext D D' a : (forall e, PS e -> (D e <-> D' e)) -> L2 D a -> L2 D' a.
Proof.
  intros X [A1 A2 (bd & A3 & A4)]. constructor; auto. exists bd. split; [exact A3|].
  intros e. rewrite A4. split; intros (H1 & H2 & s & H3 & H4 & H5);
    (split; [exact H1|]; split; [exact H2|]; exists s; split; [apply X; assumption | auto]).
Qed.

Lemma glue_first e : HS e -> sa a1 e <> 0 -> forall f, M (sP a0 e) (sQ a0 e) = Some f ->
  e = f \/ (sa a1 f = e /\ e <> f).
Proof.
  intros He Nz f Hf. destruct (j_tab _ _ _ HJ1 _ _ _ Hf) as [Df Sf]. fold (sE f e) in Sf.
  assert (Mf : M (sP a0 f) (sQ a0 f) = Some f) by (rewrite (erep_sym _ _ _ _ _ _ HR Sf); exact Hf).
  destruct (j_first _ _ _ HJ1 f Mf) as [[B C] | (g & B & C & C1 & C2 & C3 & C4)].
  - left. apply C; assumption.
  - destruct (C4 e He Sf) as [-> | [-> | Q]]; [left; reflexivity | right; auto | contradiction].
Qed.

Lemma pedge_ok D a s : L2 D a -> US s ->
  exists a', pedge h (s / 3) (s mod 3) a = Ret a' /\ L2 (plus D s) a'.
Proof.
  intros HL Hs. destruct HL as [S EA (bd & EG & EB)].
  pose proof (j_kept _ _ _ HJ1) as K1. pose proof (same_kept _ _ _ K1 S) as K.
  destruct (US_rng s Hs) as [Rs Ls]. assert (Len : alen a = alen a0) by apply K.
  assert (NoPS : forall e, PS e -> bd e = false).
  { intros e [_ Pe]. destruct (bd e) eqn:Q; [|reflexivity]. apply EB in Q. destruct Q as [[_ Q] _]. congruence. }
  assert (Par : par_only (sg a s) = par_only (sg a0 s)).
  { destruct (j_nom _ _ _ HJ1) as (nom & B & C). rewrite EG.
    destruct (par_only (sg a0 s)) eqn:Ep.
    - rewrite (NoPS s (conj Hs Ep)), B. destruct (nom s) eqn:Q; [|exact Ep].
      apply C in Q. destruct Q as [[_ Q] _]. congruence.
    - assert (X : forall t b, par_only t = false -> Z.testbit b 13 = false -> par_only (Z.lor t b) = false).
      { intros t b. unfold par_only, tst. change T_PARBDY with (2 ^ 13). change T_PARBDYBDY with (2 ^ 12).
        intros H1 H2.
        assert (Y : forall x n, 0 <= n -> (Z.land x (2 ^ n) =? 0) = negb (Z.testbit x n)).
        { intros x n Hn. destruct (Z.testbit x n) eqn:E.
          - apply Z.eqb_neq. intros C0.
            assert (X0 : Z.testbit (Z.land x (2 ^ n)) n = true) by (rewrite Z.land_spec, E, Z.pow2_bits_true by exact Hn; reflexivity).
            rewrite C0, Z.testbit_0_l in X0. discriminate.
          - apply Z.eqb_eq. apply Z.bits_inj'. intros m Hm.
            rewrite Z.land_spec, Z.pow2_bits_eqb, Z.testbit_0_l by exact Hn.
            destruct (Z.eqb_spec n m) as [<- | N]; [rewrite E; reflexivity | apply andb_false_r]. }
        rewrite !Y in * by lia. rewrite !Z.lor_spec, H2.
        destruct (Z.testbit t 13), (Z.testbit t 12); cbn in *; try discriminate; reflexivity. }
      rewrite B. destruct (bd s), (nom s); repeat (apply X; [|reflexivity]); exact Ep. }
  unfold pedge. rewrite (@rd_ok _ a (s / 3)) by (rewrite Len; exact Ls). cbn [bind]. fold (sg a s). rewrite Par.
  destruct (par_only (sg a0 s)) eqn:Ep; cbn [negb].
  2: { exists a. split; [reflexivity|]. apply (L2_ext D).
       - intros e [_ He]. unfold plus. split; [tauto|]. intros [H | ->]; [exact H | congruence].
       - constructor; eauto. }
  rewrite !(p_v _ _ K). fold (sP a0 s) (sQ a0 s).
  rewrite (lookup h M _ _ HR (US_P s Hs) (US_Q s Hs)). cbn [bind].
  destruct (M (sP a0 s) (sQ a0 s)) as [f|] eqn:E.
  - destruct (j_tab _ _ _ HJ1 _ _ _ E) as [Hf Sf]. fold (sE f s) in Sf.
    destruct (US_rng f (proj1 Hf)) as [Rf Lf]. replace (f =? 0) with false by lia.
    assert (Mf : M (sP a0 f) (sQ a0 f) = Some f) by (rewrite (erep_sym _ _ _ _ _ _ HR Sf); exact E).
    change (T_BDY + T_PARBDYBDY) with T_CON.
    destruct (chg_tag_s a f T_CON) as (a2 & E2 & S2 & G2 & P2); [rewrite Len; exact Lf|]. rewrite E2. cbn [bind].
    assert (Len2 : alen a2 = alen a0) by (rewrite (m_len _ _ S2); exact Len).
    rewrite (@rd_ok _ a2 (f / 3)) by (rewrite Len2; exact Lf). cbn [bind]. fold (sa a2 f). rewrite P2, EA.
    assert (Fin : forall a3, same a2 a3 -> (forall e, sa a3 e = sa a2 e) ->
      (forall e, sg a3 e = if (e =? sa a1 f) && negb (e =? 0) then Z.lor (sg a2 e) T_CON else sg a2 e) -> L2 (plus D s) a3).
    { intros a3 S3 P3 G3. constructor.
      - eauto using same_trans.
      - intros e. rewrite P3, P2. apply EA.
      - exists (fun e => (e =? f) || ((e =? sa a1 f) && negb (e =? 0)) || bd e). split.
        + intros e. rewrite G3, G2, EG.
          destruct (e =? f); destruct ((e =? sa a1 f) && negb (e =? 0)); destruct (bd e); cbn [orb];
            rewrite <- ?Z.lor_assoc, ?Z.lor_diag; reflexivity.
        + intros e. split.
          * intros H. assert (Q : e = f \/ (e = sa a1 f /\ e <> 0) \/ bd e = true).
            { apply orb_prop in H. destruct H as [H | H]; [|tauto]. apply orb_prop in H.
              destruct H as [H | H]; [apply Z.eqb_eq in H; tauto|].
              apply andb_prop in H. destruct H as [H1 H2]. apply Z.eqb_eq in H1. apply negb_true_iff, Z.eqb_neq in H2. tauto. }
            clear H. destruct Q as [-> | [[-> Nz] | Q]].
            -- split; [exact Hf|]. split; [left; exact Mf|]. exists s. split; [right; reflexivity|].
               split; [split; assumption | apply sE_sym; exact Sf].
            -- destruct (j_first _ _ _ HJ1 f Mf) as [[B C] | (g & B & C & C1 & C2 & C3 & C4)]; [congruence|].
               rewrite B. split; [exact C|]. split; [right; rewrite C3; lia|].
               exists s. split; [right; reflexivity|]. split; [split; assumption|].
               eapply sE_trans; [apply sE_sym; exact Sf | exact C2].
            -- apply EB in Q. destruct Q as (Q1 & Q2 & s' & Q3 & Q4 & Q5).
               split; [exact Q1|]. split; [exact Q2|]. exists s'. split; [left; exact Q3 | auto].
          * intros (H1 & H2 & s' & [H3 | ->] & H4 & H5).
            -- replace (bd e) with true; [apply orb_true_r|]. symmetry. apply EB. split; [exact H1|]. split; [exact H2|]. exists s'. auto.
            -- apply orb_true_iff. left. apply orb_true_iff.
               assert (Me : M (sP a0 e) (sQ a0 e) = Some f) by (rewrite <- (erep_sym _ _ _ _ _ _ HR H5); exact E).
               destruct H2 as [H2 | H2].
               ++ left. apply Z.eqb_eq. congruence.
               ++ destruct (glue_first e H1 H2 f Me) as [-> | [Q1 Q2]]; [left; apply Z.eqb_refl|].
                  right. apply andb_true_iff. split; [apply Z.eqb_eq; congruence|].
                  apply negb_true_iff, Z.eqb_neq. destruct (US_rng e (proj1 H1)). lia. }
    destruct (j_first _ _ _ HJ1 f Mf) as [[B C] | (g & B & C & C1 & C2 & C3 & C4)].
    + rewrite B. cbn [Z.div Z.div_eucl]. cbn [Z.eqb]. exists a2. split; [reflexivity|].
      apply Fin; [apply same_refl | reflexivity|]. intros e. rewrite B.
      destruct (Z.eqb_spec e 0); reflexivity.
    + rewrite B. destruct (US_rng g (proj1 C)) as [Rg Lg].
      destruct (Z.eqb_spec (g / 3) 0) as [Q | _].
      { exfalso. pose proof (slot_eq g). pose proof (in3_mod g) as I3. unfold in3 in I3. lia. }
      destruct (chg_tag_s a2 g T_CON) as (a3 & E3 & S3 & G3 & P3); [rewrite Len2; exact Lg|].
      exists a3. split; [exact E3|]. apply Fin; auto. intros e. rewrite G3, B.
      destruct (Z.eqb_spec e g) as [-> | N]; [|reflexivity]. replace (g =? 0) with false by lia. reflexivity.
  - cbn [Z.eqb]. exists a. split; [reflexivity|]. constructor; auto. exists bd. split; [exact EG|].
    intros e. rewrite EB. split.
    + intros (H1 & H2 & s' & H3 & H4). split; [exact H1|]. split; [exact H2|]. exists s'. split; [left; exact H3 | exact H4].
    + intros (H1 & H2 & s' & [H3 | ->] & H4 & H5); [eauto 6|].
      exfalso. destruct (j_in _ _ _ HJ1 e H1) as [f Hf].
      rewrite <- (erep_sym _ _ _ _ _ _ HR H5) in Hf. congruence.
Qed.

Lemma pedge_ok' c a k i : L2 (fun e => e < c) a -> ok nt a0 k -> in3 i -> c = 3 * k + i ->
  exists a', pedge h k i a = Ret a' /\ L2 (fun e => e < c + 1) a'.
Proof.
  intros HL Hk Hi ->.
  assert (Hs : US (3 * k + i)) by (unfold US; rewrite div3 by exact Hi; exact Hk).
  destruct (pedge_ok _ a _ HL Hs) as (a' & E & C). rewrite div3, mod3 in E by exact Hi.
  exists a'. split; [exact E|]. eapply L2_ext; [|exact C]. intros e _. unfold plus. lia.
Qed.

Lemma ptri_ok k a : 1 <= k <= nt -> L2 (fun e => e < 3 * k) a ->
  exists a', ptri h k a = Ret a' /\ L2 (fun e => e < 3 * (k + 1)) a'.
Proof.
  intros Hk HL. pose proof (same_kept _ _ _ (j_kept _ _ _ HJ1) (l_same _ _ HL)) as K.
  unfold ptri. rewrite rd_ok by (rewrite (p_len _ _ K), Hlen; lia). cbn [bind].
  destruct (s_eok (aget a k)) eqn:Ek; cbn [negb].
  - assert (Hok : ok nt a0 k) by (split; [exact Hk|]; unfold s_eok in *; rewrite (p_v _ _ K) in Ek; exact Ek).
    destruct (pedge_ok' (3 * k) a k 0 HL Hok) as (b1 & E1 & C1); [left; reflexivity | lia |].
    rewrite E1. cbn [bind].
    destruct (pedge_ok' _ b1 k 1 C1 Hok) as (b2 & E2 & C2); [right; left; reflexivity | lia |].
    rewrite E2. cbn [bind].
    destruct (pedge_ok' _ b2 k 2 C2 Hok) as (b3 & E3 & C3); [right; right; reflexivity | lia |].
    exists b3. split; [exact E3|]. eapply L2_ext; [|exact C3]. intros e _. lia.
  - exists a. split; [reflexivity|]. eapply L2_ext; [|exact HL]. intros e [[_ He] _].
    pose proof (slot_eq e). pose proof (in3_mod e) as I3. unfold in3 in I3.
    split; [lia|]. intros H1. destruct (Z.eq_dec (e / 3) k) as [Q | N]; [|lia].
    exfalso. rewrite Q in He. unfold s_eok in *. rewrite (p_v _ _ K) in Ek. congruence.
Qed.

Lemma second_loop : 0 <= nt ->
  exists a', for_range 1 nt (ptri h) a1 = Ret a' /\ L2 (fun _ => True) a'.
Proof.
  intros Hnt.
  destruct (@for_range_inv _ (fun k a => L2 (fun e => e < 3 * k) a) (ptri h) 1 nt a1) as (a' & E & C).
  - lia.
  - constructor; [apply same_refl | reflexivity|]. exists (fun _ => false). split; [reflexivity|].
    intros e. split; [discriminate|]. intros (_ & _ & s & H & [Hs _] & _). apply US_rng in Hs. lia.
  - intros k a Hk. apply ptri_ok. lia.
  - exists a'. split; [exact E|]. eapply L2_ext; [|exact C]. intros e [He _]. apply US_rng in He. split; [auto | lia].
Qed.

End Second.

(** The result. *)
Record out (a : arr stri) : Prop := {
  o_kept : kept a0 a;
  o_mark : forall k, ok nt a0 k -> s_flag (aget a k) = 0 /\ s_base (aget a k) = base;
  o_adj : forall e, US e -> sa a e = 0 \/
    (HS e /\ HS (sa a e) /\ sa a e <> e /\ sE e (sa a e) /\ sa a (sa a e) = e);
  o_alone : forall e e', HS e -> HS e' -> e <> e' -> sE e e' -> sa a e = e' \/ three HS e;
  o_tag : forall e, US e -> exists nom bd : bool,
    sg a e = Z.lor (if nom then Z.lor (sg a0 e) T_NOM else sg a0 e) (if bd then T_CON else 0) /\
    (nom = true <-> HS e /\ three HS e) /\
    (bd = true -> HS e /\ exists s, PS s /\ sE s e) /\
    (bd = false -> HS e -> (exists s, PS s /\ sE s e) -> sa a e = 0 /\ three HS e)
}.

Theorem hash_tria_ok np : 1 <= np -> 0 <= nt ->
  exists o, hash_tria nt iso isoref base gr np a0 = Ret o /\
  match o with None => exists e, gr e < 1 | Some a => out a end.
Proof.
  intros Hnp Hnt. destruct (first_loop np Hnp Hnt) as (h & E & o & E1 & C).
  unfold hash_tria. rewrite E. cbn [bind]. rewrite E1. cbn [bind].
  destruct o as [[a1 h1]|]; [|exists None; split; [reflexivity | exact C]].
  destruct C as (Mk & M & R & HJ).
  assert (HJ1 : J HS a1 M).
  { eapply J_ext; [|exact HJ]. intros e. unfold upto. split; [tauto|]. intros H. split; [exact H|].
    destruct (US_rng e (proj1 H)). lia. }
  clear HJ. destruct (second_loop a1 M h1 HJ1 R Hnt) as (a & E2 & HL). rewrite E2. cbn [bind].
  exists (Some a). split; [reflexivity|].
  destruct HL as [S EA (bd & EG & EB)]. destruct (j_nom _ _ _ HJ1) as (nom & EN & ENB).
  assert (First : forall e, HS e -> exists f, M (sP a0 e) (sQ a0 e) = Some f /\ sE f e /\ HS f /\ M (sP a0 f) (sQ a0 f) = Some f).
  { intros e He. destruct (j_in _ _ _ HJ1 e He) as [f Hf]. destruct (j_tab _ _ _ HJ1 _ _ _ Hf) as [Df Sf].
    exists f. split; [exact Hf|]. split; [exact Sf|]. split; [exact Df|].
    rewrite (erep_sym _ _ _ _ _ _ R Sf); exact Hf. }
  assert (Alone : forall e e', HS e -> HS e' -> e <> e' -> sE e e' -> sa a1 e = e' \/ three HS e).
  { intros e e' He He' N Se. destruct (First e He) as (f & Hf & Sf & Df & Mf).
    destruct (j_first _ _ _ HJ1 f Mf) as [[B C] | (g & B & C & C1 & C2 & C3 & C4)].
    - exfalso. apply N. rewrite (C e He Sf). symmetry. apply C; [exact He'|]. eapply sE_trans; eauto.
    - destruct (Z.eq_dec (sa a1 e) e') as [Q | Q]; [left; exact Q | right].
      destruct (Z.eq_dec e f) as [-> | N1].
      + exists e', g. sp; auto. congruence.
      + destruct (Z.eq_dec e g) as [-> | N2].
        * exists e', f. sp; auto. congruence. apply sE_sym; exact C2.
        * exists f, g. sp; auto. apply sE_sym; exact Sf.
          eapply sE_trans; [apply sE_sym; exact Sf | exact C2]. }
  constructor.
  - eapply same_kept; [apply (j_kept _ _ _ HJ1) | exact S].
  - intros k Hk. rewrite (m_flag _ _ S), (m_base _ _ S). apply Mk; [|exact Hk]. destruct Hk. lia.
  - intros e He. rewrite EA. destruct (Z.eq_dec (sa a1 e) 0) as [Q | Q]; [left; exact Q | right].
    assert (Hhe : HS e).
    { split; [exact He|]. destruct (par_only (sg a0 e)) eqn:Ep; [|reflexivity]. exfalso. apply Q.
      apply (j_zero _ _ _ HJ1); [exact He|]. intros [_ C]. congruence. }
    destruct (First e Hhe) as (f & Hf & Sf & Df & Mf).
    destruct (j_first _ _ _ HJ1 f Mf) as [[B C] | (g & B & C & C1 & C2 & C3 & C4)].
    + exfalso. apply Q. rewrite (C e Hhe Sf). exact B.
    + rewrite EA. destruct (C4 e Hhe Sf) as [-> | [-> | Q']]; [| |contradiction].
      * rewrite B. sp; auto; apply Df || apply Hhe.
      * rewrite C3. sp; auto; try (apply Df); try apply Hhe. apply sE_sym; exact C2.
  - intros e e' He He' N Se. rewrite EA. apply Alone; assumption.
  - intros e He. exists (nom e), (bd e). sp.
    + rewrite EG, EN. destruct (bd e); [reflexivity|]. rewrite Z.lor_0_r. reflexivity.
    + apply ENB.
    + intros Q. apply EB in Q. destruct Q as (Q1 & _ & s & _ & Q2). eauto.
    + intros Q Hh (s & Hs1 & Hs2). rewrite EA.
      destruct (Z.eq_dec (sa a1 e) 0) as [Q1 | Q1].
      2: { exfalso. assert (bd e = true) by (apply EB; eauto 7). congruence. }
      split; [exact Q1|]. destruct (First e Hh) as (f & Hf & Sf & Df & Mf).
      destruct (Z.eq_dec f e) as [-> | N1].
      { exfalso. assert (bd e = true) by (apply EB; eauto 7). congruence. }
      destruct (j_first _ _ _ HJ1 f Mf) as [[B C] | (g & B & C & C1 & C2 & C3 & C4)].
      * exfalso. apply N1. symmetry. apply C; assumption.
      * destruct (US_rng f (proj1 Df)). exists f, g. sp; auto.
        -- intros ->. congruence || lia.
        -- apply sE_sym; exact Sf.
        -- eapply sE_trans; [apply sE_sym; exact Sf | exact C2].
Qed.

End NoDup.
