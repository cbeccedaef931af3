(** Correctness of [hash2] ([MMG2D_hashTria]). *)
From Coq Require Import ZArith List Lia Bool.
From Coq Require Import ZifyNat.
From Verif Require Import CBase SurfModel Tria2.
Import ListNotations.
Open Scope Z_scope.
Ltac Zify.zify_post_hook ::= Z.div_mod_to_equations.

(** keeps [lia] from splitting a hypothesis *)
Definition hide (P : Prop) : Prop := P.

Section A.
Variables (inival nt ntmax : Z) (tr : arr tri).
Hypothesis Hnt : 0 <= nt <= ntmax.
Hypothesis Hlen : alen tr = ntmax + 1.
Hypothesis Hini : 3 * nt < inival.
(** the vertices of the triangles that are not holes are positive *)
Hypothesis Hv : forall k, 1 <= k <= nt -> t_v (aget tr k) 0 <> 0 -> forall i, 0 <= i < 3 -> 0 < t_v (aget tr k) i.

Let N := 3 * nt.

(** edge number [f] in [1..N] is edge [(f-1) mod 3] of triangle [(f-1)/3+1] *)
Definition fel (f : Z) := (f - 1) / 3 + 1.
Definition floc (f : Z) := (f - 1) mod 3.
Definition live (f : Z) : Prop := t_v (aget tr (fel f)) 0 <> 0.
(** ends of an edge; nothing coincides with the edge of a hole *)
Definition fid (f : Z) : Z * Z :=
  if t_v (aget tr (fel f)) 0 =? 0 then (- f, 0)
  else (emin (aget tr (fel f)) (floc f), emax (aget tr (fel f)) (floc f)).
(** bucket of an edge; 0 for a hole *)
Definition fbk (f : Z) : Z := let '(a, b) := fid f in if a <=? 0 then 0 else (7 * a + 11 * b) mod nt + 1.

Lemma fid_fbk f g : fid f = fid g -> fbk f = fbk g.
Proof. unfold fbk. intros ->. reflexivity. Qed.

Lemma fel_range f : 1 <= f <= N -> 1 <= fel f <= nt /\ 0 <= floc f < 3.
Proof. clear. unfold fel, floc, N. lia. Qed.

Lemma ends_pos k i : 1 <= k <= nt -> t_v (aget tr k) 0 <> 0 -> 0 <= i < 3 ->
  0 < emin (aget tr k) i /\ 0 < emax (aget tr k) i.
Proof.
  intros Hk L Hi. unfold emin, emax.
  assert (A : 0 <= nx i < 3) by (unfold nx; destruct (i =? 0), (i =? 1); lia).
  assert (B : 0 <= pv i < 3) by (unfold pv; destruct (i =? 0), (i =? 1); lia).
  pose proof (Hv k Hk L _ A). pose proof (Hv k Hk L _ B). lia.
Qed.

Lemma fid_live f : live f -> fid f = (emin (aget tr (fel f)) (floc f), emax (aget tr (fel f)) (floc f)).
Proof. unfold live, fid. intros L. destruct (Z.eqb_spec (t_v (aget tr (fel f)) 0) 0); [contradiction | reflexivity]. Qed.

Lemma fid_hole f : ~ live f -> fid f = (- f, 0).
Proof. unfold live, fid. intros L. destruct (Z.eqb_spec (t_v (aget tr (fel f)) 0) 0); [reflexivity | contradiction]. Qed.

Lemma live_dec f : {live f} + {~ live f}.
Proof. unfold live. destruct (Z.eq_dec (t_v (aget tr (fel f)) 0) 0); [right | left]; auto. Qed.

Lemma twin_live f g : 1 <= f <= N -> 1 <= g <= N -> f <> g -> fid f = fid g -> live f /\ live g.
Proof.
  intros Hf Hg Nq E. destruct (fel_range f Hf) as [A B]. destruct (fel_range g Hg) as [C D].
  destruct (live_dec f) as [L|L], (live_dec g) as [L'|L']; auto; exfalso.
  - rewrite (fid_live f L), (fid_hole g L') in E. destruct (ends_pos _ _ A L B).
    assert (X := f_equal fst E). cbn in X. lia.
  - rewrite (fid_hole f L), (fid_live g L') in E. destruct (ends_pos _ _ C L' D).
    assert (X := f_equal fst E). cbn in X. lia.
  - rewrite (fid_hole f L), (fid_hole g L') in E. assert (X := f_equal fst E). cbn in X. lia.
Qed.

Lemma fbk_live f : 1 <= f <= N -> live f ->
  fbk f = (7 * emin (aget tr (fel f)) (floc f) + 11 * emax (aget tr (fel f)) (floc f)) mod nt + 1.
Proof.
  intros H L. unfold fbk. rewrite (fid_live f L). destruct (fel_range f H) as [A B].
  destruct (ends_pos _ _ A L B). destruct (Z.leb_spec (emin (aget tr (fel f)) (floc f)) 0); [lia | reflexivity].
Qed.

Lemma fbk_range f : 1 <= f <= N -> live f -> 1 <= fbk f <= nt.
Proof.
  intros H L. rewrite (fbk_live f H L). unfold N in H.
  generalize (7 * emin (aget tr (fel f)) (floc f) + 11 * emax (aget tr (fel f)) (floc f)). intros z.
  pose proof (Z.mod_pos_bound z nt). lia.
Qed.

Lemma fbk_hole f : 1 <= f -> ~ live f -> fbk f = 0.
Proof. intros H L. unfold fbk. rewrite (fid_hole f L). destruct (Z.leb_spec (- f) 0); lia. Qed.

Lemma fel_at k i : 0 <= i < 3 -> fel (3 * (k - 1) + i + 1) = k /\ floc (3 * (k - 1) + i + 1) = i.
Proof. clear. unfold fel, floc. lia. Qed.

Lemma ekey_ok k i : 1 <= k <= nt -> 0 <= i < 3 -> t_v (aget tr k) 0 <> 0 ->
  ekey2 nt (emin (aget tr k) i) (emax (aget tr k) i) = Ret (fbk (3 * (k - 1) + i + 1)).
Proof.
  intros Hk Hi L. unfold ekey2. destruct (Z.eqb_spec nt 0); [lia|].
  destruct (fel_at k i Hi) as [E1 E2]. 
  rewrite fbk_live; [|unfold N; lia | unfold live; rewrite E1; exact L]. rewrite E1, E2.
  destruct (ends_pos k i Hk L Hi). rewrite Z.rem_mod_nonneg; [reflexivity|lia|lia].
Qed.

(** ** Stage 1 *)

(** [p] is the closest earlier edge of the bucket of [f] that is still unlinked,
    or [inival]. *)
Definition prev (link : Z -> Z) (f b p : Z) : Prop :=
  (p = inival /\ forall g, 1 <= g < f -> fbk g = b -> 0 <= link g) \/
  (1 <= p < f /\ fbk p = b /\ link p < 0 /\ forall g, p < g < f -> fbk g = b -> 0 <= link g).

Definition Inv1 (iadr : Z) (st : arr Z * arr Z) : Prop :=
  let '(link, hcode) := st in
  alen link = 3 * ntmax + 5 /\ alen hcode = nt + 1
  /\ (forall f, 1 <= f <= iadr -> live f -> aget link f < 0 /\ prev (aget link) f (fbk f) (- aget link f))
  /\ (forall b, 1 <= b <= nt -> prev (aget link) (iadr + 1) b (- aget hcode b))
  /\ (forall f, iadr < f \/ (1 <= f /\ ~ live f) -> aget link f = 0).

Lemma stage1_step iadr link hcode :
  0 <= iadr < N -> live (iadr + 1) -> Inv1 iadr (link, hcode) ->
  let b := fbk (iadr + 1) in
  Inv1 (iadr + 1) (mkArr (alen link) (upd (aget link) (iadr + 1) (aget hcode b)),
                   mkArr (alen hcode) (upd (aget hcode) b (- (iadr + 1)))).
Proof.
  intros Hk Lv [L1 [L2 [H1 [H2 H3]]]] b. cbn [alen aget].
  assert (Hb : 1 <= b <= nt) by (apply fbk_range; [lia | exact Lv]).
  assert (Hneg : aget hcode b < 0).
  { destruct (H2 b Hb) as [[E _]|[E _]]; lia. }
  split; [exact L1|]. split; [exact L2|].
  assert (Hup : forall g, g <= iadr -> upd (aget link) (iadr + 1) (aget hcode b) g = aget link g).
  { intros g Hg. apply upd_other. lia. }
  cbn [aget alen]. split; [|split].
  3: { intros f [Hf|[Hf Nf]].
       - rewrite upd_other by lia. apply H3. left. lia.
       - rewrite upd_other by (intros ->; contradiction). apply H3. right. auto. }
  - intros f Hf Lf. destruct (Z.eq_dec f (iadr + 1)) as [->|Nf].
    + rewrite upd_same. split; [exact Hneg|].
      destruct (H2 b Hb) as [[E H]|[R [E [Hl H]]]]; [left | right].
      * split; [exact E|]. intros g Hg Eg. rewrite Hup by lia. apply H; [lia | exact Eg].
      * split; [lia|]. split; [exact E|]. split; [rewrite Hup by lia; exact Hl|].
        intros g Hg Eg. rewrite Hup by lia. apply H; [lia | exact Eg].
    + rewrite Hup by lia. destruct (H1 f) as [Hn P]; [lia | exact Lf|]. split; [exact Hn|].
      destruct P as [[E H]|[R [E [Hl H]]]]; [left | right].
      * split; [exact E|]. intros g Hg Eg. rewrite Hup by lia. apply H; [lia | exact Eg].
      * split; [lia|]. split; [exact E|]. split; [rewrite Hup by lia; exact Hl|].
        intros g Hg Eg. rewrite Hup by lia. apply H; [lia | exact Eg].
  - intros c Hc. unfold upd at 2. destruct (Z.eqb_spec c b) as [->|Nc].
    + right. split; [lia|]. replace (- - (iadr + 1)) with (iadr + 1) by lia.
      split; [reflexivity|]. split; [rewrite upd_same; exact Hneg|]. intros g Hg. lia.
    + destruct (H2 c Hc) as [[E H]|[R [E [Hl H]]]]; [left | right].
      * split; [exact E|]. intros g Hg Eg.
        destruct (Z.eq_dec g (iadr + 1)) as [->|Ng]; [unfold b in Nc; congruence|].
        rewrite Hup by lia. apply H; [lia | exact Eg].
      * split; [lia|]. split; [exact E|]. split; [rewrite Hup by lia; exact Hl|].
        intros g Hg Eg.
        destruct (Z.eq_dec g (iadr + 1)) as [->|Ng]; [unfold b in Nc; congruence|].
        rewrite Hup by lia. apply H; [lia | exact Eg].
Qed.

Lemma stage1_hole iadr st : 0 <= iadr -> ~ live (iadr + 1) -> Inv1 iadr st -> Inv1 (iadr + 1) st.
Proof.
  intros Hk Lv. destruct st as [link hcode]. intros [L1 [L2 [H1 [H2 H3]]]].
  split; [exact L1|]. split; [exact L2|]. split; [|split].
  - intros f Hf Lf. apply H1; [|exact Lf]. assert (f <> iadr + 1) by (intros ->; contradiction). lia.
  - intros b Hb. destruct (H2 b Hb) as [[E H]|[R [E [Hl H]]]]; [left | right].
    + split; [exact E|]. intros g Hg Eg. destruct (Z.eq_dec g (iadr + 1)) as [->|Ng].
      * rewrite fbk_hole in Eg by (auto; lia). lia.
      * apply H; [lia | exact Eg].
    + split; [lia|]. split; [exact E|]. split; [exact Hl|]. intros g Hg Eg.
      destruct (Z.eq_dec g (iadr + 1)) as [->|Ng].
      * rewrite fbk_hole in Eg by (auto; lia). lia.
      * apply H; [lia | exact Eg].
  - intros f [Hf|Hf]; apply H3; [left; lia | right; exact Hf].
Qed.

Lemma stage1_ok link hcode :
  Inv1 0 (link, hcode) ->
  exists st, first2 nt tr link hcode = Ret st /\ Inv1 N st.
Proof.
  intros H0. unfold first2.
  match goal with |- context [for_range 1 nt ?f ?s] =>
    destruct (@for_range_inv (arr Z * arr Z) (fun k st => Inv1 (3 * (k - 1)) st) f 1 nt s) as [st [E P]] end.
  - lia.
  - exact H0.
  - intros k st Hk P. rewrite rd_ok by lia. cbn [bind].
    destruct (Z.eqb_spec (t_v (aget tr k) 0) 0) as [Z0|Lk].
    + exists st. split; [reflexivity|].
      assert (D : forall i, 0 <= i < 3 -> ~ live (3 * (k - 1) + i + 1)).
      { intros i Hi. unfold live. destruct (fel_at k i Hi) as [-> _]. auto. }
      replace (3 * (k + 1 - 1)) with (3 * (k - 1) + 1 + 1 + 1) by lia.
      apply stage1_hole; [lia | replace (3 * (k - 1) + 1 + 1 + 1) with (3 * (k - 1) + 2 + 1) by lia; apply D; lia |].
      apply stage1_hole; [lia | apply D; lia |].
      apply stage1_hole; [lia | replace (3 * (k - 1) + 1) with (3 * (k - 1) + 0 + 1) by lia; apply D; lia | exact P].
    + match goal with |- context [for_range 0 2 ?f ?s] =>
        destruct (@for_range_inv (arr Z * arr Z) (fun i st => Inv1 (3 * (k - 1) + i) st) f 0 2 s) as [st' [E' P']] end.
      * lia.
      * rewrite Z.add_0_r. exact P.
      * intros i [l hc] Hi Q. rewrite ekey_ok by (auto; lia). cbn [bind].
        pose proof Q as Q0. destruct Q as [L1 [L2 _]].
        assert (Lf : live (3 * (k - 1) + i + 1)) by (unfold live; destruct (fel_at k i) as [-> _]; [lia | exact Lk]).
        pose proof (fbk_range (3 * (k - 1) + i + 1) ltac:(unfold N; lia) Lf) as Hb.
        rewrite rd_ok by lia. cbn [bind]. rewrite wr_ok by lia. cbn [bind]. rewrite wr_ok by lia. cbn [bind].
        eexists. split; [reflexivity|].
        replace (3 * (k - 1) + (i + 1)) with (3 * (k - 1) + i + 1) by lia.
        apply stage1_step; auto. unfold N. lia.
      * exists st'. split; [exact E'|]. replace (3 * (k + 1 - 1)) with (3 * (k - 1) + (2 + 1)) by lia. exact P'.
  - exists st. split; [exact E|]. replace N with (3 * (nt + 1 - 1)) by (unfold N; lia). exact P.
Qed.

(** ** Stage 2 *)

Record Inv2 (l : Z) (link : arr Z) : Prop := {
  j_len : alen link = 3 * ntmax + 5;
  (* faces above [l] are treated *)
  j_done : forall f, l < f <= N -> 0 <= aget link f;
  (* links are mutual and join equal faces *)
  j_sym : forall f, 1 <= f <= N -> 0 < aget link f ->
          exists g, 1 <= g <= N /\ g <> f /\ aget link f = g + 2 /\ aget link g = f + 2 /\ fid g = fid f;
  (* a treated face without partner has no free twin *)
  j_free : forall f g, 1 <= f <= N -> 1 <= g <= N -> f <> g -> fid f = fid g ->
           aget link f = 0 -> 0 < aget link g;
  (* untreated faces are chained *)
  j_chain : forall f, 1 <= f <= l -> aget link f < 0 -> prev (aget link) f (fbk f) (- aget link f);
  j_zero : forall f, 1 <= f <= l -> live f -> aget link f <> 0;
  j_out : forall f, N < f -> aget link f = 0;
  j_hole : forall f, 1 <= f -> ~ live f -> aget link f = 0
}.

(** Effect of the search on the array. *)
Lemma enc_face f : 1 <= f <= N ->
  3 * (Z.quot (f - 1) 3 + 1) + Z.rem (f - 1) 3 = f + 2
  /\ Z.quot (f - 1) 3 + 1 = fel f /\ Z.rem (f - 1) 3 = floc f.
Proof.
  intros H. unfold fel, floc. rewrite Z.quot_div_nonneg, Z.rem_mod_nonneg by lia. lia.
Qed.

Ltac Zify.zify_post_hook ::= idtac.

Lemma seek_ok l (link0 link : arr Z) :
  1 <= l <= N -> live l -> Inv2 l link0 -> aget link0 l < 0 ->
  alen link = alen link0 -> (forall f, aget link f = if f =? l then 0 else aget link0 f) ->
  forall fuel ll pp,
  (Z.to_nat ll < fuel \/ ll = inival)%nat ->
  (0 < fuel)%nat ->
  prev (aget link) (if pp =? 0 then l else pp) (fbk l) ll ->
  (pp = 0 \/ (1 <= pp < l /\ fbk pp = fbk l /\ aget link pp = - ll)) ->
  (forall g, (if pp =? 0 then l else pp) <= g < l -> fid g = fid l -> 0 <= aget link g) ->
  exists link', seek2 fuel inival tr link l (Z.quot (l - 1) 3 + 1) (Z.rem (l - 1) 3)
       (emin (aget tr (fel l)) (floc l)) (emax (aget tr (fel l)) (floc l)) ll pp
     = Ret link' /\ Inv2 (l - 1) link'.
Proof.
  intros Hl Lvl J Hneg Hal Hag. pose proof (j_len _ _ J) as JL.
  induction fuel as [|fuel IH]; intros ll pp Hf Hf0 Hprev Hpp Hno; [lia|]. clear Hf0.
  cbn [seek2].
  assert (Hag' : forall f, f <> l -> aget link f = aget link0 f).
  { intros f Nf. rewrite Hag. destruct (Z.eqb_spec f l); congruence. }
  assert (Hagl : aget link l = 0) by (rewrite Hag, Z.eqb_refl; reflexivity).
  assert (Hppb : 1 <= (if pp =? 0 then l else pp) <= l) by (destruct (Z.eqb_spec pp 0); lia).
  destruct (Z.eqb_spec ll inival) as [El|Nl].
  - (* no partner *)
    exists link. split; [reflexivity|]. subst ll.
    assert (Hnone : forall g, 1 <= g < l -> fid g = fid l -> 0 <= aget link g).
    { intros g Hg Eg. destruct Hprev as [[_ H]|[R _]]; [|unfold N in *; lia].
      destruct (Z_lt_le_dec g (if pp =? 0 then l else pp)) as [Hlt|Hge].
      - apply H; [lia | apply fid_fbk; exact Eg].
      - apply Hno; [lia | exact Eg]. }
    constructor.
    + congruence.
    + intros f Hf'. destruct (Z.eq_dec f l) as [->|Nf]; [lia|]. rewrite Hag' by auto. apply (j_done _ _ J). lia.
    + intros f Hf' Hpos. destruct (Z.eq_dec f l) as [->|Nf]; [lia|]. rewrite Hag' in Hpos by auto.
      destruct (j_sym _ _ J f Hf' Hpos) as [g [G1 [G2 [G3 [G4 G5]]]]].
      assert (g <> l) by (intros ->; lia).
      exists g. rewrite !Hag' by auto. auto.
    + intros f g F1 G1 Nfg E Hz. destruct (Z.eq_dec f l) as [->|Nf].
      * rewrite Hag' by auto.
        destruct (Z_lt_le_dec g l) as [Hlt|Hge].
        -- pose proof (Hnone g ltac:(lia) ltac:(congruence)) as Hp. rewrite Hag' in Hp by auto.
           pose proof (j_zero _ _ J g ltac:(lia) (proj2 (twin_live l g F1 G1 Nfg E))). lia.
        -- pose proof (j_done _ _ J g ltac:(lia)) as Hd.
           destruct (Z.eq_dec (aget link0 g) 0) as [Ez|Nz]; [|lia].
           pose proof (j_free _ _ J g l G1 F1 ltac:(auto) ltac:(congruence) Ez). lia.
      * rewrite Hag' in Hz by auto. pose proof (j_free _ _ J f g F1 G1 Nfg E Hz) as Hp.
        destruct (Z.eq_dec g l) as [->|Ng]; [lia|]. rewrite Hag' by auto. exact Hp.
    + intros f Hf' Hn. rewrite Hag' in Hn |- * by lia.
      destruct (j_chain _ _ J f ltac:(lia) Hn) as [[E H]|[R [E [Hl' H]]]]; [left | right].
      * split; [exact E|]. intros g Hg Eg. rewrite Hag' by lia. auto.
      * repeat split; auto; try lia. rewrite Hag' by lia. exact Hl'.
        intros g Hg Eg. rewrite Hag' by lia. auto.
    + intros f Hf' Lf. rewrite Hag' by lia. apply (j_zero _ _ J); [lia | exact Lf].
    + intros f Hf'. rewrite Hag' by lia. apply (j_out _ _ J). lia.
    + intros f Hf' Lf. rewrite Hag' by (intros ->; contradiction). apply (j_hole _ _ J); auto.
  - assert (HP : hide ((pp = 0 /\ (if pp =? 0 then l else pp) = l) \/
                 (pp <> 0 /\ (if pp =? 0 then l else pp) = pp /\ 1 <= pp < l /\ fbk pp = fbk l /\ aget link pp = - ll))).
    { red. destruct (Z.eqb_spec pp 0) as [E|E]; [left; auto | right]. destruct Hpp as [?|[? [? ?]]]; [congruence|]. auto. }
    clear Hpp. remember (if pp =? 0 then l else pp) as P eqn:EP. clear EP.
    assert (Hll : 1 <= ll < P /\ fbk ll = fbk l /\ aget link ll < 0
       /\ forall g, ll < g < P -> fbk g = fbk l -> 0 <= aget link g).
    { destruct Hprev as [[E _]|H]; [congruence | exact H]. }
    clear Hprev. destruct Hll as [Hlr [Hlb [Hln Hlg]]].
    assert (Hllr : 1 <= ll <= N) by lia.
    destruct (enc_face ll Hllr) as [Ell [Ek Ei]]. destruct (fel_range ll Hllr) as [R1 R2].
    destruct (enc_face l Hl) as [EL _].
    rewrite Ek, Ei. rewrite rd_ok by (clear - R1 Hnt Hlen; lia). cbn [bind].
    assert (Lll : live ll).
    { destruct (live_dec ll) as [L|L]; [exact L | exfalso].
      rewrite (fbk_hole ll) in Hlb by (auto; lia). pose proof (fbk_range l Hl Lvl). lia. }
    destruct ((emin (aget tr (fel ll)) (floc ll) =? emin (aget tr (fel l)) (floc l)) &&
              (emax (aget tr (fel ll)) (floc ll) =? emax (aget tr (fel l)) (floc l))) eqn:Em.
    + (* partner found *)
      assert (Eid : fid ll = fid l).
      { apply andb_prop in Em. destruct Em as [E1 E2].
        apply Z.eqb_eq in E1, E2. rewrite (fid_live ll Lll), (fid_live l Lvl). congruence. }
      assert (Hlink1 : exists link1, (if pp =? 0 then Ret link else x <- rd link ll ;; wr link pp x) = Ret link1
         /\ alen link1 = alen link /\
         forall f, aget link1 f = if (negb (pp =? 0)) && (f =? pp) then aget link ll else aget link f).
      { destruct (Z.eqb_spec pp 0) as [E|Np]; cbn [negb andb].
        - exists link. auto.
        - destruct HP as [[? _]|[_ [_ [HP _]]]]; [congruence|]. rewrite rd_ok by lia. cbn [bind]. rewrite wr_ok by lia. eexists. split; [reflexivity|].
          split; [reflexivity|]. intros f. reflexivity. }
      destruct Hlink1 as [link1 [E1 [L1 G1]]]. rewrite E1. cbn [bind].
      rewrite wr_ok by lia. cbn [bind]. rewrite wr_ok by (cbn [alen]; lia).
      eexists. split; [reflexivity|].
      pose proof L1 as Hla.
      set (link' := mkArr _ _).
      assert (Hg' : forall f, aget link' f =
        if f =? ll then l + 2 else if f =? l then ll + 2 else
        if (negb (pp =? 0)) && (f =? pp) then aget link0 ll else aget link0 f).
      { intros f. unfold link'. cbn [aget alen]. unfold upd. rewrite EL.
        destruct (Z.eqb_spec f ll); [reflexivity|].
        destruct (Z.eqb_spec f l); [rewrite <- Ek, <- Ei; exact Ell|].
        rewrite G1. destruct (negb (pp =? 0) && (f =? pp)); apply Hag'; [clear - Hlr Hppb; lia | auto]. }
      clear E1 L1 G1 Ell EL Em.
      assert (Hgl : aget link' l = ll + 2).
      { rewrite Hg'. destruct (Z.eqb_spec l ll); [lia|]. rewrite Z.eqb_refl. reflexivity. }
      assert (Hgll : aget link' ll = l + 2) by (rewrite Hg', Z.eqb_refl; reflexivity).
      assert (Hgo : forall f, f <> l -> f <> ll -> (pp <> 0 -> f <> pp) -> aget link' f = aget link0 f).
      { intros f N1 N2 N3. rewrite Hg'. destruct (Z.eqb_spec f ll); [congruence|].
        destruct (Z.eqb_spec f l); [congruence|].
        destruct (Z.eqb_spec pp 0); cbn [negb andb]; [reflexivity|].
        destruct (Z.eqb_spec f pp); [exfalso; apply N3; auto | reflexivity]. }
      clear Ek Ei R1 R2 IH Hf Hno.
      rewrite Hag' in Hln by lia.
      assert (Hgp : pp <> 0 -> aget link' pp = aget link0 ll /\ aget link0 pp = - ll).
      { intros Np. split.
        - destruct HP as [[? _]|[_ [HP1 [HP2 _]]]]; [congruence|].
          rewrite Hg'. destruct (Z.eqb_spec pp 0); [congruence|]. cbn [negb andb].
          destruct (Z.eqb_spec pp ll); [lia|]. destruct (Z.eqb_spec pp l); [lia|]. rewrite Z.eqb_refl. reflexivity.
        - destruct HP as [[? _]|[_ [HP1 [HP2 [HP3 HP4]]]]]; [congruence|]. rewrite <- HP4. symmetry. apply Hag'. lia. }
      assert (Hppos : hide (pp <> 0 -> aget link0 pp < 0)) by (intros Np; destruct (Hgp Np); lia).
      change (hide (pp <> 0 -> aget link' pp = aget link0 ll /\ aget link0 pp = - ll)) in Hgp.
      (* sign of the new array *)
      assert (Hsgn : forall f, f <> l -> f <> ll -> (aget link' f < 0 <-> aget link0 f < 0) /\ (aget link' f = 0 <-> aget link0 f = 0)
                     /\ (0 < aget link' f -> aget link' f = aget link0 f)).
      { intros f N1 N2. destruct (Z.eq_dec pp 0) as [Ep|Np].
        - rewrite Hgo by (auto; congruence). tauto.
        - destruct (Z.eq_dec f pp) as [->|N3].
          + destruct (Hgp Np) as [A1 A2]. pose proof (Hppos Np). rewrite A1. lia.
          + rewrite Hgo by (auto; congruence). tauto. }
      constructor.
      * unfold link'. cbn [alen]. rewrite Hla. congruence.
      * intros f Hf'. destruct (Z.eq_dec f l) as [->|N1]; [lia|].
        destruct (Hsgn f ltac:(auto) ltac:(lia)) as [S1 [S2 S3]].
        pose proof (j_done _ _ J f ltac:(lia)). lia.
      * intros f Hf' Hpos. destruct (Z.eq_dec f l) as [->|N1].
        -- exists ll. repeat split; auto; lia.
        -- destruct (Z.eq_dec f ll) as [->|N2].
           ++ exists l. repeat split; auto; lia.
           ++ destruct (Hsgn f N1 N2) as [S1 [S2 S3]]. pose proof (S3 Hpos) as S4. rewrite S4 in Hpos.
              destruct (j_sym _ _ J f Hf' Hpos) as [g [A1 [A2 [A3 [A4 A5]]]]].
              assert (Ngl : g <> l) by (intros ->; lia).
              assert (Ngll : g <> ll) by (intros ->; lia).
              exists g. split; [exact A1|]. split; [exact A2|]. split; [congruence|]. split; [|exact A5].
              rewrite Hgo; [exact A4 | exact Ngl | exact Ngll |].
              intros Np ->. pose proof (Hppos Np) as HH. clear - HH A4 Hf'. lia.
      * intros f g F1 G2 Nfg E Hz.
        assert (N1 : f <> l) by (intros ->; lia). assert (N2 : f <> ll) by (intros ->; lia).
        destruct (Hsgn f N1 N2) as [_ [S2 _]]. apply S2 in Hz.
        pose proof (j_free _ _ J f g F1 G2 Nfg E Hz) as Hp.
        assert (N3 : g <> l) by (intros ->; lia). assert (N4 : g <> ll) by (intros ->; lia).
        rewrite Hgo; [exact Hp | exact N3 | exact N4 |].
        intros Np ->. pose proof (Hppos Np) as HH. clear - HH Hp. lia.
      * intros f Hf' Hn.
        assert (N2 : f <> ll) by (intros ->; lia).
        destruct (Hsgn f ltac:(lia) N2) as [S1 _]. apply S1 in Hn. clear S1.
        pose proof (j_chain _ _ J f ltac:(lia) Hn) as Hc.
        assert (Hmono : forall g, 1 <= g < f -> 0 <= aget link0 g -> 0 <= aget link' g).
        { intros g Hg H0. destruct (Z.eq_dec g ll) as [->|Ng]; [lia|].
          destruct (Hsgn g ltac:(clear - Hg Hf' Hl; lia) Ng) as [S1 _]. clear - S1 H0. lia. }
        destruct (Z.eq_dec pp 0) as [Ep|Np].
        -- (* [ll] was the direct predecessor of [l]: nobody below [l] pointed to it *)
           rewrite Hgo by (auto; lia).
           destruct Hc as [[E H]|[R [E [Hl' H]]]]; [left | right].
           ++ split; [exact E|]. intros g Hg Eg. apply Hmono; [first [exact Hg | clear - Hg R; lia]|]. apply H; auto.
           ++ split; [exact R|]. split; [exact E|].
              destruct (Z.eq_dec (- aget link0 f) ll) as [Efl|Nfl].
              ** exfalso. (* f lies strictly between ll and l in the bucket and is unlinked *)
                 destruct HP as [[_ HP]|[? _]]; [|congruence]. assert (H0 : 0 <= aget link f).
                 { apply Hlg; [lia|]. rewrite <- E, Efl. exact Hlb. }
                 rewrite Hag' in H0 by lia. lia.
              ** split.
                 --- destruct (Hsgn (- aget link0 f) ltac:(lia) Nfl) as [S1 _]. apply S1. exact Hl'.
                 --- intros g Hg Eg. apply Hmono; [first [exact Hg | clear - Hg R; lia]|]. apply H; auto.
        -- destruct (Hgp Np) as [A1 A2].
           destruct HP as [[? _]|[_ [HP1 [Hppr [Hppk _]]]]]; [congruence|]. subst P.
           pose proof (j_chain _ _ J ll ltac:(lia) Hln) as Hcl.
           destruct (Z.eq_dec f pp) as [->|Nfp].
           ++ rewrite A1. rewrite Hlb, <- Hppk in Hcl. destruct Hcl as [[E H]|[R [E [Hl' H]]]]; [left | right].
              ** split; [exact E|]. intros g Hg Eg. destruct (Z.eq_dec g ll) as [->|Ng]; [lia|].
                 apply Hmono; [exact Hg|].
                 destruct (Z_lt_le_dec g ll); [apply H; [lia | exact Eg]|].
                 rewrite <- Hag' by lia. apply Hlg; [lia | congruence].
              ** split; [lia|]. split; [exact E|]. split.
                 --- destruct (Hsgn (- aget link0 ll) ltac:(lia) ltac:(lia)) as [S1 _]. apply S1. exact Hl'.
                 --- intros g Hg Eg. destruct (Z.eq_dec g ll) as [->|Ng]; [lia|].
                     apply Hmono; [clear - Hg R; lia|].
                     destruct (Z_lt_le_dec g ll); [apply H; [lia | exact Eg]|].
                     rewrite <- Hag' by lia. apply Hlg; [lia | congruence].
           ++ rewrite Hgo by (auto; lia).
              destruct Hc as [[E H]|[R [E [Hl' H]]]]; [left | right].
              ** split; [exact E|]. intros g Hg Eg. apply Hmono; [first [exact Hg | clear - Hg R; lia]|]. apply H; auto.
              ** split; [exact R|]. split; [exact E|].
                 destruct (Z.eq_dec (- aget link0 f) ll) as [Efl|Nfl].
                 --- exfalso.
                     assert (Ebf : fbk f = fbk l) by (rewrite <- E, Efl; exact Hlb).
                     destruct (Z_lt_le_dec f pp) as [Hfp|Hfp].
                     +++ assert (0 <= aget link f) by (apply Hlg; [lia | exact Ebf]).
                         rewrite Hag' in H0 by lia. lia.
                     +++ assert (0 <= aget link0 pp) by (apply H; [lia | congruence]).
                         pose proof (Hppos Np). lia.
                 --- split.
                     +++ destruct (Hsgn (- aget link0 f) ltac:(lia) Nfl) as [S1 _]. apply S1. exact Hl'.
                     +++ intros g Hg Eg. apply Hmono; [first [exact Hg | clear - Hg R; lia]|]. apply H; auto.
      * intros f Hf' Lf. destruct (Z.eq_dec f ll) as [->|N2]; [lia|].
        destruct (Hsgn f ltac:(lia) N2) as [_ [S2 _]]. rewrite S2. apply (j_zero _ _ J); [lia | exact Lf].
      * intros f Hf'. rewrite Hgo; [apply (j_out _ _ J); lia | lia | lia | ].
        intros Np ->. destruct HP as [[? _]|[_ [_ [? _]]]]; [congruence|lia].
      * intros f Hf' Lf. rewrite Hgo; [apply (j_hole _ _ J); auto | intros ->; contradiction | intros ->; contradiction |].
        intros Np ->. pose proof (Hppos Np) as HH. rewrite (j_hole _ _ J pp Hf' Lf) in HH. lia.
    + (* go on *)
      rewrite rd_ok by lia. cbn [bind].
      assert (Nid : fid ll <> fid l).
      { intros E. rewrite (fid_live ll Lll), (fid_live l Lvl) in E.
        assert (E1 := f_equal fst E). assert (E2 := f_equal snd E). cbn [fst snd] in E1, E2.
        rewrite E1, E2, !Z.eqb_refl in Em. discriminate. }
      clear Em Ell Ek Ei EL.
      assert (Hag0 : aget link ll = aget link0 ll) by (apply Hag'; lia).
      rewrite Hag0 in Hln.
      pose proof (j_chain _ _ J ll ltac:(lia) Hln) as Hcl.
      assert (Ell0 : (ll =? 0) = false) by (apply Z.eqb_neq; lia).
      apply IH.
      * rewrite Hag0. destruct Hcl as [[E _]|[R _]].
        -- right. lia.
        -- left. lia.
      * lia.
      * rewrite Ell0, Hag0, <- Hlb. destruct Hcl as [[E H]|[R [E [Hl' H]]]]; [left | right].
        -- split; [exact E|]. intros g Hg Eg. rewrite Hag' by lia. apply H; auto.
        -- split; [exact R|]. split; [exact E|]. split; [rewrite Hag' by lia; exact Hl'|].
           intros g Hg Eg. rewrite Hag' by lia. apply H; auto.
      * right. split; [lia|]. split; [exact Hlb|]. lia.
      * rewrite Ell0. intros g Hg Eg. destruct (Z.eq_dec g ll) as [->|Ng]; [congruence|].
        destruct (Z_lt_le_dec g P).
        -- apply Hlg; [lia | apply fid_fbk; exact Eg].
        -- apply Hno; [lia | exact Eg].
Qed.

Lemma stage2_ok link hcode :
  Inv1 N (link, hcode) ->
  exists adj, second2 inival nt tr link = Ret adj /\ Inv2 0 adj.
Proof.
  intros [L1 [_ [H1 [_ H3]]]].
  assert (H4 : forall f, 1 <= f -> ~ live f -> aget link f = 0) by (intros f A B; apply H3; right; auto).
  unfold second2. apply for_down_inv with (P := fun l link => Inv2 l link).
  - unfold N in *. lia.
  - fold N. constructor.
    + exact L1.
    + intros f Hf. lia.
    + intros f Hf Hp. destruct (live_dec f) as [L|L]; [destruct (H1 f Hf L); lia | rewrite H4 in Hp by (auto; lia); lia].
    + intros f g Hf Hg Nq E Hz. destruct (twin_live f g Hf Hg Nq E) as [L _]. destruct (H1 f Hf L). lia.
    + intros f Hf Hp. destruct (live_dec f) as [L|L]; [apply (H1 f Hf L) | rewrite H4 in Hp by (auto; lia); lia].
    + intros f Hf L. destruct (H1 f Hf L). lia.
    + intros f Hf. apply H3. left. exact Hf.
    + intros f Hf L. apply H4; auto.
  - intros l lk Hl J. pose proof (j_len _ _ J) as JL.
    rewrite rd_ok by (rewrite JL; unfold N in Hl; lia). cbn [bind].
    destruct (Z.leb_spec 0 (aget lk l)) as [Hp|Hn].
    + exists lk. split; [reflexivity|]. destruct J as [a b c d e f g h]. constructor; auto.
      * intros x Hx. destruct (Z.eq_dec x l) as [->|]; [lia | apply b; lia].
      * intros x Hx. apply e. lia.
      * intros x Hx. apply f. lia.
    + assert (HlN : 1 <= l <= N) by (unfold N; lia).
      assert (Lvl : live l).
      { destruct (live_dec l) as [L|L]; [exact L|]. rewrite (j_hole _ _ J l) in Hn by (auto; lia). lia. }
      destruct (enc_face l HlN) as [_ [Ek Ei]]. destruct (fel_range l HlN) as [R1 R2].
      rewrite Ek, Ei. rewrite rd_ok by (clear - R1 Hnt Hlen; lia). cbn [bind].
      rewrite wr_ok by (rewrite JL; unfold N in Hl; lia). cbn [bind].
      pose proof (j_chain _ _ J l ltac:(lia) Hn) as Hc.
      pose proof (seek_ok l lk (mkArr (alen lk) (upd (aget lk) l 0)) HlN Lvl J Hn eq_refl (fun f => eq_refl)) as S.
      rewrite Ek, Ei in S. apply S; auto; clear S.
      * destruct Hc as [[E _]|[R _]]; [right; exact E | left; lia].
      * lia.
      * cbn [Z.eqb aget].
        assert (Ho : forall g, g <> l -> upd (aget lk) l 0 g = aget lk g) by (intros; apply upd_other; auto).
        destruct Hc as [[E H]|[R [E [Hl' H]]]]; [left | right].
        -- split; [exact E|]. intros g Hg Eg. rewrite Ho by lia. apply H; auto.
        -- split; [exact R|]. split; [exact E|]. split; [rewrite Ho by lia; exact Hl'|].
           intros g Hg Eg. rewrite Ho by lia. apply H; auto.
      * cbn [Z.eqb]. intros g Hg. lia.
Qed.

Lemma hash2_ok : exists adj, hash2 inival nt ntmax tr = Ret adj /\ Inv2 0 adj.
Proof.
  unfold hash2.
  destruct (@for_range_inv (arr Z) (fun k h => alen h = nt + 1 /\ forall f, 0 <= f < k -> aget h f = - inival)
     (fun k h => wr h k (- inival)) 0 nt (acalloc (nt + 1) 0)) as [h [E [L H]]].
  - lia.
  - split; [reflexivity|]. intros f Hf. lia.
  - intros k h Hk [L H]. rewrite wr_ok by lia. eexists. split; [reflexivity|]. cbn [alen aget]. split; [exact L|].
    intros f Hf. unfold upd. destruct (Z.eqb_spec f k); [reflexivity | apply H; lia].
  - rewrite E. cbn [bind].
    destruct (stage1_ok (acalloc (3 * ntmax + 5) 0) h) as [[lk hc] [E1 I1]].
    { split; [reflexivity|]. split; [exact L|]. split; [intros f Hf; lia|]. split.
      - intros b Hb. left. split; [rewrite H by lia; lia|]. intros g Hg. lia.
      - intros f Hf. reflexivity. }
    rewrite E1. cbn [bind]. exact (stage2_ok lk hc I1).
Qed.

End A.
