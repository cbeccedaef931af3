(** Proofs about the allocation of triangles, the edge split and the point insertion. *)
From Coq Require Import ZArith List Lia Bool.
From Verif Require Import CBase Op2Model Op2Spec Op2Proofs.
Import ListNotations.
Open Scope Z_scope.

(** ** Transport of the half-edges *)

Section Transport.
Variables (m m' : mesh) (F : Z -> Z -> Prop) (f : Z -> Z -> Z * Z).
Hypothesis Hori : oriented m.
Hypothesis Hadj : adjacent m.
Hypothesis HF : forall x y, F x y \/ ~ F x y.
(** A half-edge that is not new carries the edge of the half-edge [f x y]. *)
Hypothesis H1 : forall x y, live m' x -> loc y -> ~ F x y ->
  live m (fst (f x y)) /\ loc (snd (f x y)) /\ ends m (fst (f x y)) (snd (f x y)) = ends m' x y.
Hypothesis H1n : forall x y, live m' x -> loc y -> ~ F x y ->
  (nb m' x y = 0 /\ nb m (fst (f x y)) (snd (f x y)) = 0) \/
  (exists z w, live m' z /\ loc w /\ ~ F z w /\ nb m' x y = 3 * z + w /\
     nb m (fst (f x y)) (snd (f x y)) = 3 * fst (f z w) + snd (f z w)).
Hypothesis H2 : forall x y z w, live m' x -> loc y -> ~ F x y -> live m' z -> loc w -> ~ F z w ->
  f x y = f z w -> x = z /\ y = w.
(** A new half-edge carries an edge that did not exist. *)
Hypothesis H3 : forall x y, live m' x -> loc y -> F x y ->
  forall z w, live m z -> loc w -> ends m z w <> ends m' x y /\ ends m z w <> swp (ends m' x y).
Hypothesis H4 : forall x y z w, live m' x -> loc y -> F x y -> live m' z -> loc w -> F z w ->
  ends m' x y = ends m' z w -> x = z /\ y = w.
Hypothesis H5 : forall x y, live m' x -> loc y -> F x y ->
  (nb m' x y = 0 /\ forall z w, live m' z -> loc w -> F z w -> ends m' z w <> swp (ends m' x y)) \/
  (exists z w, live m' z /\ loc w /\ nb m' x y = 3 * z + w /\ ends m' z w = swp (ends m' x y)).

Lemma transport_oriented : oriented m'.
Proof.
  intros x y z w Lx Lz Ly Lw E. destruct (HF x y) as [Fx|Fx], (HF z w) as [Fz|Fz].
  - apply H4; assumption.
  - exfalso. destruct (H1 z w Lz Lw Fz) as (A & B & C). destruct (H3 x y Lx Ly Fx _ _ A B) as [N _]. congruence.
  - exfalso. destruct (H1 x y Lx Ly Fx) as (A & B & C). destruct (H3 z w Lz Lw Fz _ _ A B) as [N _]. congruence.
  - destruct (H1 x y Lx Ly Fx) as (A & B & C), (H1 z w Lz Lw Fz) as (A' & B' & C').
    apply H2; try assumption. destruct (Hori _ _ _ _ A A' B B') as [D E1]; [congruence|].
    rewrite (surjective_pairing (f x y)), (surjective_pairing (f z w)). congruence.
Qed.

Lemma transport_adjacent : adjacent m'.
Proof.
  intros x y Lx Ly. destruct (HF x y) as [Fx|Fx].
  - destruct (H5 x y Lx Ly Fx) as [[N H]|R]; [left|right; exact R]. split; [exact N|].
    intros z w Lz Lw E. destruct (HF z w) as [Fz|Fz]; [exact (H z w Lz Lw Fz E)|].
    destruct (H1 z w Lz Lw Fz) as (A & B & C). destruct (H3 x y Lx Ly Fx _ _ A B) as [_ N']. congruence.
  - destruct (H1 x y Lx Ly Fx) as (A & B & C).
    destruct (Hadj _ _ A B) as [[N0 H]|(l & j & Ll & Lj & E & E')].
    + left. split.
      * destruct (H1n x y Lx Ly Fx) as [[N _]|(z & w & Lz & Lw & Fz & _ & N')]; [exact N|].
        exfalso. destruct (H1 z w Lz Lw Fz) as (A' & B' & _). apply loc_le in B'. unfold live in A'. lia.
      * intros z w Lz Lw E. destruct (HF z w) as [Fz|Fz].
        -- destruct (H3 z w Lz Lw Fz _ _ A B) as [_ N']. apply N'. rewrite E, swp_swp. exact C.
        -- destruct (H1 z w Lz Lw Fz) as (A' & B' & C'). apply (H _ _ A' B'). congruence.
    + right. destruct (H1n x y Lx Ly Fx) as [[_ N]|(z & w & Lz & Lw & Fz & N & N')].
      * exfalso. apply loc_le in Lj. unfold live in Ll. lia.
      * exists z, w. destruct (H1 z w Lz Lw Fz) as (A' & B' & C').
        repeat split; try assumption; try apply Lz.
        rewrite N' in E. destruct (enc_inj _ _ _ _ B' Lj E) as [D1 D2]. rewrite D1, D2 in C'. congruence.
Qed.

(** Tags: [T] and [G] are the tag and the reference carried by an old half-edge. *)
Variables (T G : Z -> Z -> Z).
Hypothesis HT : forall x y z w, live m x -> loc y -> live m z -> loc w -> nb m x y = 3 * z + w -> T z w = T x y /\ G z w = G x y.
Hypothesis Ht : forall x y, live m' x -> loc y -> ~ F x y ->
  tag m' x y = T (fst (f x y)) (snd (f x y)) /\ edg m' x y = G (fst (f x y)) (snd (f x y)).
Hypothesis Hf : forall x y z w, live m' x -> loc y -> F x y -> live m' z -> loc w -> nb m' x y = 3 * z + w ->
  tag m' z w = tag m' x y /\ edg m' z w = edg m' x y.

Lemma transport_tags : tags_agree m'.
Proof.
  intros x y Lx Ly N.
  destruct (adj_sym m' x y transport_oriented transport_adjacent Lx Ly N) as (z & w & Lz & Lw & E & S & _).
  rewrite E, dec_div, dec_mod by exact Lw. destruct (HF x y) as [Fx|Fx]; [apply (Hf x y z w); assumption|].
  destruct (H1n x y Lx Ly Fx) as [[N0 _]|(z' & w' & Lz' & Lw' & Fz & N1 & N2)]; [contradiction|].
  rewrite E in N1. destruct (enc_inj _ _ _ _ Lw Lw' N1) as [<- <-].
  destruct (H1 x y Lx Ly Fx) as (A & B & _), (H1 z w Lz Lw Fz) as (A' & B' & _).
  destruct (Ht x y Lx Ly Fx) as [-> ->], (Ht z w Lz Lw Fz) as [-> ->]. exact (HT _ _ _ _ A B A' B' N2).
Qed.
End Transport.

(** ** Allocation of a triangle *)

Lemma chain_frame2 m m' : m_ntmax m <= m_ntmax m' -> (forall x, live m' x -> live m x) ->
  forall n fl, chain m n fl -> (forall x, In x fl -> vtx m' x 2 = vtx m x 2) -> chain m' n fl.
Proof.
  intros E L n fl C. induction C as [|k fl B N I C IH]; intros V; [constructor|].
  constructor; [lia| |exact I|].
  - intros H. apply N, L, H.
  - rewrite V by (left; reflexivity). apply IH. intros x Hx. apply V. right. exact Hx.
Qed.

(** Nothing changes for the triangles in use. *)
Definition same_live (m m' : mesh) : Prop :=
  (forall x, live m' x <-> live m x) /\ m_ptag m' = m_ptag m /\
  (forall x y, live m x -> vtx m' x y = vtx m x y /\ tag m' x y = tag m x y /\ edg m' x y = edg m x y) /\
  (forall x y, live m x -> loc y -> nb m' x y = nb m x y).

Lemma same_live_refl m : same_live m m.
Proof. split; [tauto|]. auto. Qed.
Lemma same_live_trans a b c : same_live a b -> same_live b c -> same_live a c.
Proof.
  intros (A1 & A2 & A3 & A4) (B1 & B2 & B3 & B4). split; [|split; [congruence|split]].
  - intros x. rewrite (B1 x). apply A1.
  - intros x y H. destruct (A3 x y H) as (E1 & E2 & E3), (B3 x y (proj2 (A1 x) H)) as (F1 & F2 & F3).
    repeat split; congruence.
  - intros x y L Ly. rewrite (B4 x y (proj2 (A1 x) L) Ly). exact (A4 x y L Ly).
Qed.

(** The tables when triangle [e] is neither in use nor free. *)
Definition tables_but (m : mesh) (e : Z) : Prop :=
  alen (m_tri m) = m_ntmax m + 1 /\ alen (m_adj m) = 3 * m_ntmax m + 5 /\
  0 <= m_nt m < m_ntmax m /\ vtx m (m_ntmax m) 2 = 0 /\
  (forall k, live m k -> k <= m_nt m) /\
  (exists l, chain m (m_nil m) l /\ ~ In e l) /\
  (forall g b, In (g, b) (m_gaps m) -> 1 <= g) /\ 1 <= e <= m_nt m /\ ~ live m e.

Lemma tables_but_ok m e : tables_but m e -> tables_ok m.
Proof. intros (A & B & C & D & E & (l & F & _) & G & _). repeat split; try assumption; try apply C. exists l. exact F. Qed.

Lemma newElt_ok m : tables_ok m -> m_nil m <> 0 ->
  exists m1, newElt m = Ret (m_nil m, m1) /\ same_live m m1 /\ tables_but m1 (m_nil m) /\
  m_nil m1 = vtx m (m_nil m) 2 /\ m_nt m <= m_nt m1 /\
  (forall l, chain m (m_nil m) l -> exists l', l = m_nil m :: l' /\ chain m1 (m_nil m1) l').
Proof.
  intros (A & B & C & D & E & (fl & Ch) & G) N. unfold newElt. rewrite (proj2 (Z.eqb_neq _ _) N).
  inversion Ch as [E0|k fl' Bk Nl NI Ch' E1 E2]; [congruence|]. subst k.
  set (e := m_nil m) in *.
  assert (R : forall mm, m_tri mm = m_tri m -> get_t mm e = Ret (aget (m_tri m) e)).
  { intros mm Em. unfold get_t. rewrite Em. apply rd_ok. lia. }
  rewrite R by (destruct (m_nt m <? e); reflexivity). cbn [bind].
  unfold set_t. rewrite wr_ok by (destruct (m_nt m <? e); cbn; lia). cbn [bind].
  eexists. split; [reflexivity|].
  set (m1 := p_tri _ _).
  assert (Etri : m_tri m1 = mkArr (alen (m_tri m)) (upd (aget (m_tri m)) e
     (mkTria (upd (tv (aget (m_tri m) e)) 2 0) (ttag (aget (m_tri m) e)) (fun _ => 0) 0)))
    by (unfold m1; destruct (m_nt m <? e); reflexivity).
  assert (Eadj : m_adj m1 = m_adj m) by (unfold m1; destruct (m_nt m <? e); reflexivity).
  assert (Ept : m_ptag m1 = m_ptag m) by (unfold m1; destruct (m_nt m <? e); reflexivity).
  assert (Enil : m_nil m1 = vtx m e 2) by (unfold m1; destruct (m_nt m <? e); reflexivity).
  assert (Ent : m_nt m1 = Z.max (m_nt m) e) by (unfold m1; destruct (Z.ltb_spec (m_nt m) e); cbn; lia).
  assert (Emx : m_ntmax m1 = m_ntmax m) by (unfold m1; destruct (m_nt m <? e); reflexivity).
  assert (Egp : m_gaps m1 = m_gaps m) by (unfold m1; destruct (m_nt m <? e); reflexivity).
  clearbody m1.
  assert (V : forall x y, x <> e -> vtx m1 x y = vtx m x y).
  { intros x y H. unfold vtx. rewrite Etri. cbn [aget]. rewrite upd_other by exact H. reflexivity. }
  assert (L : forall x, live m1 x <-> live m x).
  { intros x. unfold live. rewrite Etri. cbn [alen aget]. unfold upd. destruct (Z.eqb_spec x e); [subst; cbn; reflexivity|reflexivity]. }
  assert (Sl : same_live m m1).
  { split; [exact L|]. split; [exact Ept|]. split.
    - intros x y Lx. assert (x <> e) by (intros ->; contradiction).
      unfold vtx, tag, edg. rewrite Etri. cbn [aget]. rewrite upd_other by assumption. auto.
    - intros x y Lx Ly. unfold nb. rewrite Eadj. reflexivity. }
  split; [exact Sl|]. split; [|split; [exact Enil|split; [lia|]]].
  2:{ intros l Cl. inversion Cl as [E0|k l' Bk' Nl' NI' Cl' E1' E2']; [congruence|]. subst k. exists l'. split; [reflexivity|].
    rewrite Enil. apply (chain_frame2 m m1); [lia|intros x; apply L|exact Cl'|].
    intros x Hx. apply V. intros ->. contradiction. }
  unfold tables_but. rewrite Etri, Eadj, Enil, Ent, Emx, Egp. cbn [alen].
  repeat split; try assumption; try lia.
  - rewrite V by lia. exact D.
  - intros x Lx. apply L in Lx. specialize (E x Lx). lia.
  - exists fl'. split; [|exact NI]. apply (chain_frame2 m m1); [lia|intros x; apply L|exact Ch'|].
    intros x Hx. apply V. intros ->. contradiction.
  - intros Lx. apply L in Lx. contradiction.
Qed.

(** The loop that chains the new triangles. *)
Lemma link_loop (m0 : mesh) lo hi : 0 <= lo -> hi < alen (m_tri m0) -> lo <= hi + 1 ->
  exists s, for_range lo hi (fun k m => set_v m k 2 (k + 1)) m0 = Ret s /\
  m_adj s = m_adj m0 /\ m_ptag s = m_ptag m0 /\ m_nil s = m_nil m0 /\ m_nt s = m_nt m0 /\ m_ntmax s = m_ntmax m0 /\
  m_gaps s = m_gaps m0 /\ alen (m_tri s) = alen (m_tri m0) /\
  (forall x y, vtx s x y = if (lo <=? x) && (x <=? hi) && (y =? 2) then x + 1 else vtx m0 x y) /\
  (forall x y, tag s x y = tag m0 x y /\ edg s x y = edg m0 x y).
Proof.
  intros H0 Hh Hl.
  destruct (@for_range_inv mesh (fun c s =>
    m_adj s = m_adj m0 /\ m_ptag s = m_ptag m0 /\ m_nil s = m_nil m0 /\ m_nt s = m_nt m0 /\ m_ntmax s = m_ntmax m0 /\
    m_gaps s = m_gaps m0 /\ alen (m_tri s) = alen (m_tri m0) /\
    (forall x y, vtx s x y = if (lo <=? x) && (x <=? c - 1) && (y =? 2) then x + 1 else vtx m0 x y) /\
    (forall x y, tag s x y = tag m0 x y /\ edg s x y = edg m0 x y))
    (fun k m => set_v m k 2 (k + 1)) lo hi m0 Hl) as (s & Es & P).
  - repeat split. intros x y. destruct (Z.leb_spec lo x), (Z.leb_spec x (lo - 1)); cbn; try reflexivity; lia.
  - intros c s Hc (A1 & A2 & A3 & A4 & A5 & A6 & A7 & A8 & A9).
    exists (pv s c 2 (c + 1)). split.
    { unfold set_v, get_t. rewrite rd_ok by lia. cbn [bind]. unfold set_t. rewrite wr_ok by lia. reflexivity. }
    repeat split; try assumption.
    + intros x y. rewrite vtx_pv. unfold at2. destruct (Z.eqb_spec x c), (Z.eqb_spec y 2); cbn [andb]; subst.
      * destruct (Z.leb_spec lo c), (Z.leb_spec c (c + 1 - 1)); cbn; try lia.
      * rewrite A8. destruct (Z.eqb_spec y 2); [contradiction|]. rewrite !andb_false_r. reflexivity.
      * rewrite A8. destruct (Z.leb_spec lo x), (Z.leb_spec x (c - 1)), (Z.leb_spec x (c + 1 - 1)); cbn; try reflexivity; lia.
      * rewrite A8. destruct (Z.eqb_spec y 2); [contradiction|]. rewrite !andb_false_r. reflexivity.
    + rewrite tag_pv. apply A9.
    + rewrite edg_pv. apply A9.
  - exists s. replace (hi + 1 - 1) with hi in P by lia. split; [exact Es|exact P].
Qed.

Lemma chain_range s n : (forall x, live s x -> x < n) -> forall (c : nat) lo, n <= lo -> 1 <= lo ->
  lo + Z.of_nat c < m_ntmax s ->
  (forall x, lo <= x < lo + Z.of_nat c -> vtx s x 2 = x + 1) -> vtx s (lo + Z.of_nat c) 2 = 0 ->
  exists fl, chain s lo fl /\ forall x, In x fl -> lo <= x.
Proof.
  intros HL. induction c as [|c IH]; intros lo Hn H1 Hm Hv H0.
  - exists [lo]. split; [|intros x [<-|[]]; lia].
    constructor; [lia|intros H; specialize (HL _ H); lia|intros []|].
    replace (lo + Z.of_nat 0) with lo in H0 by lia. rewrite H0. constructor.
  - destruct (IH (lo + 1)) as (fl & Ch & Lo); try lia.
    + intros x Hx. apply Hv. lia.
    + replace (lo + 1 + Z.of_nat c) with (lo + Z.of_nat (S c)) by lia. exact H0.
    + exists (lo :: fl). split.
      * constructor; [lia|intros H; specialize (HL _ H); lia|intros H; specialize (Lo _ H); lia|].
        rewrite Hv by lia. exact Ch.
      * intros x [<-|Hx]; [lia|specialize (Lo _ Hx); lia].
Qed.

Lemma realloc_ok m : tables_ok m ->
  exists iel m1, tria_realloc m = Ret (iel, m1) /\ same_live m m1 /\
  (iel = 0 \/ tables_but m1 iel).
Proof.
  intros (A & B & C & D & E & (fl & Ch) & G). unfold tria_realloc.
  destruct (m_gaps m) as [|[g adjok] gs] eqn:EG; [exists 0, m; auto using same_live_refl|].
  assert (Hg : 1 <= g) by (apply (G g adjok); left; reflexivity).
  set (mx := m_ntmax m + g). set (m0 := mkMesh _ _ _ _ _ _ _).
  destruct (link_loop m0 (m_nt m + 1) (mx - 2)) as (s & Es & S1 & S2 & S3 & S4 & S5 & S6 & S7 & S8 & S9); [lia|cbn; lia|lia|].
  change (m_nt m0 + 1) with (m_nt m + 1). rewrite Es. cbn [bind].
  assert (L0 : forall x, live m0 x <-> live m x).
  { intros x. unfold live, m0. cbn [m_tri alen aget]. fold mx. split; intros [X Y].
    - destruct (Z.ltb_spec x (m_ntmax m + 1)); [split; [lia|exact Y]|cbn in Y; lia].
    - split; [lia|]. destruct (Z.ltb_spec x (m_ntmax m + 1)); [exact Y|lia]. }
  assert (V0 : forall x y, x <= m_ntmax m -> vtx m0 x y = vtx m x y /\ tag m0 x y = tag m x y /\ edg m0 x y = edg m x y).
  { intros x y H. unfold vtx, tag, edg, m0. cbn [m_tri aget]. destruct (Z.ltb_spec x (m_ntmax m + 1)); [auto|lia]. }
  assert (Ls : forall x, live s x <-> live m x).
  { intros x. rewrite <- L0. unfold live. rewrite S7. change (tv (aget (m_tri s) x) 0) with (vtx s x 0).
    rewrite S8, andb_false_r. reflexivity. }
  assert (Sl : same_live m s).
  { split; [exact Ls|]. split; [exact S2|]. split.
    - intros x y Lx. pose proof (E x Lx). destruct (V0 x y) as (V1 & V2 & V3); [lia|].
      rewrite S8, V1. destruct (S9 x y) as [-> ->]. rewrite V2, V3.
      destruct (Z.leb_spec (m_nt m + 1) x); [lia|]. cbn. auto.
    - intros x y Lx Ly. unfold nb. rewrite S1. reflexivity. }
  destruct adjok.
  2:{ exists 0, s. auto. }
  set (s1 := p_adjs s _).
  assert (L1 : forall x, live s1 x <-> live m x) by exact Ls.
  assert (Sl1 : same_live m s1).
  { destruct Sl as (P1 & P2 & P3 & P4). split; [exact P1|]. split; [exact P2|]. split; [exact P3|].
    intros x y Lx Ly. rewrite <- (P4 x y Lx Ly). unfold nb, s1, arecalloc. cbn [m_adj p_adjs aget].
    rewrite S1. change (m_adj m0) with (m_adj m). pose proof (E x Lx). pose proof (loc_le _ Ly).
    destruct (Z.ltb_spec (3 * (x - 1) + 1 + y) (alen (m_adj m))); [reflexivity|lia]. }
  assert (T1 : tables_ok s1).
  { assert (Emx : m_ntmax s = mx) by exact S5. assert (Ent : m_nt s = m_nt m) by exact S4.
    assert (Enl : m_nil s = m_nt m + 1) by exact S3. assert (Egs : m_gaps s = gs) by exact S6.
    unfold tables_ok, s1. cbn [m_tri m_adj m_ntmax m_nt m_nil m_gaps p_adjs arecalloc alen].
    rewrite Emx, Ent, Enl, Egs, S7. cbn [m0 m_tri alen]. fold mx. repeat split; try lia.
    - change (vtx s mx 2 = 0). rewrite S8. destruct (Z.leb_spec mx (mx - 2)); [lia|]. rewrite andb_false_r. cbn [andb].
      unfold vtx, m0. cbn [m_tri aget]. destruct (Z.ltb_spec mx (m_ntmax m + 1)); [lia|reflexivity].
    - intros x Lx. apply L1 in Lx. exact (E x Lx).
    - destruct (chain_range s (m_nt m + 1)) with (c := Z.to_nat (mx - 1 - (m_nt m + 1))) (lo := m_nt m + 1) as (fl' & Ch' & _).
      + intros x Lx. apply Ls in Lx. specialize (E x Lx). lia.
      + lia.
      + lia.
      + rewrite Emx. lia.
      + intros x Hx. rewrite S8. destruct (Z.leb_spec (m_nt m + 1) x), (Z.leb_spec x (mx - 2)); cbn; lia.
      + replace (m_nt m + 1 + Z.of_nat (Z.to_nat (mx - 1 - (m_nt m + 1)))) with (mx - 1) by lia.
        rewrite S8. destruct (Z.leb_spec (mx - 1) (mx - 2)); [lia|]. rewrite andb_false_r. cbn [andb].
        unfold vtx, m0. cbn [m_tri aget]. destruct (Z.ltb_spec (mx - 1) (m_ntmax m + 1)); [|reflexivity].
        assert (mx - 1 = m_ntmax m) as -> by lia. exact D.
      + exists fl'. revert Ch'. clear - s1. intros Ch'. apply (chain_frame2 s s1); [cbn; lia|intros x H; exact H|exact Ch'|reflexivity].
    - intros g' b' Hi. apply (G g' b'). right. exact Hi. }
  destruct (newElt_ok s1 T1) as (m1 & En & Sn & Tn & _).
  { change (m_nil s <> 0). rewrite S3. cbn. lia. }
  rewrite En. eexists _, m1. split; [reflexivity|]. split; [eapply same_live_trans; eassumption|]. right. exact Tn.
Qed.

Lemma newElt_re_ok m : tables_ok m ->
  exists iel mv m1, newElt_re m = Ret (iel, mv, m1) /\ same_live m m1 /\ (iel = 0 \/ tables_but m1 iel) /\
  (m_nil m <> 0 -> iel = m_nil m /\ mv = false /\ m_nil m1 = vtx m (m_nil m) 2 /\ m_nt m <= m_nt m1 /\
    forall l, chain m (m_nil m) l -> exists l', l = m_nil m :: l' /\ chain m1 (m_nil m1) l').
Proof.
  intros HT. unfold newElt_re. destruct (Z.eq_dec (m_nil m) 0) as [E|N].
  - unfold newElt. rewrite (proj2 (Z.eqb_eq _ _) E). cbn [bind Z.eqb].
    destruct (realloc_ok m HT) as (iel & m1 & -> & S & T). cbn [bind]. exists iel, true, m1.
    split; [reflexivity|]. split; [exact S|]. split; [exact T|]. intros H; contradiction.
  - destruct (newElt_ok m HT N) as (m1 & -> & S & T & E & E' & E''). cbn [bind]. rewrite (proj2 (Z.eqb_neq _ _) N).
    exists (m_nil m), false, m1. auto 12.
Qed.

(** A triangle taken from the pool comes into use. *)
Lemma tables_use m m' e : same_frame m m' -> (forall x, live m' x <-> live m x \/ x = e) ->
  (forall x, ~ live m x -> x <> e -> vtx m' x 2 = vtx m x 2) -> tables_but m e -> tables_ok m'.
Proof.
  intros (A1 & A2 & A3 & A4 & A5 & A6 & A7) L V (B1 & B2 & B3 & B4 & B5 & (fl & B6 & B6') & B7 & B8 & B9).
  unfold tables_ok. rewrite A1, A2, A4, A5, A6, A7. repeat split; try assumption; try apply B3.
  - rewrite V; [exact B4| |lia]. intros H. specialize (B5 _ H). lia.
  - intros x H. apply L in H. destruct H as [H| ->]; [exact (B5 x H)|lia].
  - exists fl. clear - A6 L V B6 B6'. revert B6 B6'. generalize (m_nil m). intros n C.
    induction C as [|k fl B N I C IH]; intros NI; [constructor|].
    assert (k <> e) by (intros ->; apply NI; left; reflexivity).
    constructor; [rewrite A6; exact B| |exact I|rewrite V by assumption; apply IH; intros H1; apply NI; right; exact H1].
    intros H1. apply L in H1. destruct H1; contradiction.
Qed.

Lemma tables_but_intab m e : tables_but m e -> intab m e.
Proof. intros (A & B & C & _ & _ & _ & _ & D & _). unfold intab. lia. Qed.

(** ** One half of an edge split *)

Lemma half_split_run m k e c d ip :
  intab m k -> intab m e -> e <> k -> loc c -> loc d -> c <> d ->
  (nb m k c / 3 = 0 \/ (intab m (nb m k c / 3) /\ nb m k c / 3 <> k /\ nb m k c / 3 <> e)) ->
  exists m', half_split m k e c d ip = Ret m' /\ same_frame m m' /\
  (forall x y, vtx m' x y = if x =? e then (if y =? c then ip else vtx m k y)
                            else if at2 k d x y then ip else vtx m x y) /\
  (forall x y, tag m' x y = if x =? e then (if y =? d then 0 else tag m k y)
                            else if at2 k c x y then 0 else tag m x y) /\
  (forall x y, edg m' x y = if x =? e then (if y =? d then 0 else edg m k y)
                            else if at2 k c x y then 0 else edg m x y) /\
  (forall x y, loc y -> nb m' x y =
     if x =? e then (if y =? d then 3 * k + c else nb m k y)
     else if at2 k c x y then 3 * e + d
     else if negb (nb m k c / 3 =? 0) && at2 (nb m k c / 3) (nb m k c mod 3) x y then 3 * e + c
     else nb m x y).
Proof.
  intros Ik Ie Ne Lc Ld Nc HM. unfold half_split, copy_elt.
  assert (L0 : loc 0) by (left; reflexivity). assert (L1 : loc 1) by (right; left; reflexivity).
  assert (L2 : loc 2) by (right; right; reflexivity).
  rewrite get_t_ok by exact Ik. cbn [bind]. rewrite set_t_ok by exact Ie. cbn [bind].
  set (ma := p_tri m _).
  assert (Fa : same_frame m ma) by (repeat split).
  assert (Va : forall x y, vtx ma x y = if x =? e then vtx m k y else vtx m x y).
  { intros. unfold vtx, ma, upd. cbn. destruct (x =? e); reflexivity. }
  assert (Ta : forall x y, tag ma x y = if x =? e then tag m k y else tag m x y).
  { intros. unfold tag, ma, upd. cbn. destruct (x =? e); reflexivity. }
  assert (Ea : forall x y, edg ma x y = if x =? e then edg m k y else edg m x y).
  { intros. unfold edg, ma, upd. cbn. destruct (x =? e); reflexivity. }
  assert (Na : forall x y, nb ma x y = nb m x y) by reflexivity.
  clearbody ma.
  assert (Ika : intab ma k) by (eapply intab_frame; eassumption).
  assert (Iea : intab ma e) by (eapply intab_frame; eassumption).
  rewrite !get_adj_ok by assumption. cbn [bind].
  rewrite set_adj_ok by assumption. cbn [bind]. rewrite set_adj_ok by (assumption || intabs). cbn [bind].
  rewrite set_adj_ok by (assumption || intabs). cbn [bind].
  set (mb := pa _ e 2 _).
  assert (Fb : same_frame ma mb) by (unfold mb; frames).
  assert (Vb : forall x y, vtx mb x y = if x =? e then vtx m k y else vtx m x y) by (intros; unfold mb; views; apply Va).
  assert (Tb : forall x y, tag mb x y = if x =? e then tag m k y else tag m x y) by (intros; unfold mb; views; apply Ta).
  assert (Eb : forall x y, edg mb x y = if x =? e then edg m k y else edg m x y) by (intros; unfold mb; views; apply Ea).
  assert (Nb : forall x y, loc y -> nb mb x y = if x =? e then nb m k y else nb m x y).
  { intros x y Ly. unfold mb. views. rewrite !Na. destruct (Z.eqb_spec x e) as [->|N].
    - destruct Ly as [->|[->| ->]]; unfold at2; rewrite Z.eqb_refl; cbn; reflexivity.
    - rewrite !at2_k by exact N. reflexivity. }
  clearbody mb.
  assert (Ikb : intab mb k) by (eapply intab_frame; eassumption).
  assert (Ieb : intab mb e) by (eapply intab_frame; eassumption).
  rewrite set_v_ok by exact Ikb. cbn [bind]. rewrite set_v_ok by intabs. cbn [bind].
  rewrite set_tag_ok by intabs. cbn [bind]. rewrite set_edg_ok by intabs. cbn [bind].
  rewrite set_tag_ok by intabs. cbn [bind]. rewrite set_edg_ok by intabs. cbn [bind].
  rewrite get_adj_ok by (assumption || intabs). cbn [bind].
  set (b := nb _ k c).
  assert (Eb0 : b = nb m k c).
  { unfold b. views. rewrite Nb by exact Lc. destruct (Z.eqb_spec k e); [congruence|reflexivity]. }
  clearbody b. subst b.
  rewrite set_adj_ok by (assumption || intabs). cbn [bind]. rewrite set_adj_ok by (assumption || intabs). cbn [bind].
  set (mc := pa _ e d _).
  assert (Fc : same_frame mb mc) by (unfold mc; frames).
  assert (Imel : negb (nb m k c / 3 =? 0) = true -> intab mc (nb m k c / 3) /\ loc (nb m k c mod 3)).
  { intros H. split; [|apply loc_mod]. destruct HM as [E|[I _]]; [rewrite E in H; discriminate|].
    apply (intab_frame mb); [exact Fc|]. apply (intab_frame ma); [exact Fb|]. exact (intab_frame m ma _ Fa I). }
  rewrite set_adj_if by exact Imel. eexists. split; [reflexivity|].
  split.
  { eapply same_trans; [|apply same_paif]. eapply same_trans; [exact Fa|]. eapply same_trans; [exact Fb|exact Fc]. }
  split; [|split; [|split]].
  - intros x y. views. unfold mc. views. rewrite Vb. destruct (Z.eqb_spec x e) as [->|N].
    + unfold at2. rewrite Z.eqb_refl. destruct (Z.eqb_spec y c); cbn [andb]; [reflexivity|].
      destruct (Z.eqb_spec e k); [congruence|]. reflexivity.
    + rewrite (at2_k e) by exact N. reflexivity.
  - intros x y. views. unfold mc. views. rewrite Tb. destruct (Z.eqb_spec x e) as [->|N].
    + unfold at2. rewrite Z.eqb_refl. destruct (Z.eqb_spec y d); cbn [andb]; [reflexivity|].
      destruct (Z.eqb_spec e k); [congruence|]. reflexivity.
    + rewrite (at2_k e) by exact N. reflexivity.
  - intros x y. views. unfold mc. views. rewrite Eb. destruct (Z.eqb_spec x e) as [->|N].
    + unfold at2. rewrite Z.eqb_refl. destruct (Z.eqb_spec y d); cbn [andb]; [reflexivity|].
      destruct (Z.eqb_spec e k); [congruence|]. reflexivity.
    + rewrite (at2_k e) by exact N. reflexivity.
  - intros x y Ly. rewrite nb_paif by (auto using loc_mod). unfold mc. views. rewrite Nb by exact Ly.
    destruct (Z.eqb_spec x e) as [->|N].
    + assert (negb (nb m k c / 3 =? 0) && at2 (nb m k c / 3) (nb m k c mod 3) e y = false) as ->.
      { destruct HM as [E|(_ & _ & N)]; [rewrite E; reflexivity|]. rewrite at2_k by congruence. apply andb_false_r. }
      unfold at2. rewrite Z.eqb_refl. destruct (Z.eqb_spec y d); cbn [andb]; [reflexivity|].
      destruct (Z.eqb_spec e k); [congruence|]. reflexivity.
    + rewrite (at2_k e) by exact N. destruct (at2_dec k c x y) as [(-> & -> & ->)|(N2 & ->)]; [|reflexivity].
      assert (negb (nb m k c / 3 =? 0) && at2 (nb m k c / 3) (nb m k c mod 3) k c = false) as ->; [|reflexivity].
      destruct HM as [E|(_ & N' & _)]; [rewrite E; reflexivity|]. rewrite at2_k by congruence. apply andb_false_r.
Qed.

(** ** Split of an edge shared by two triangles *)

Lemma enc_dec x y k i : loc y -> loc i -> (3 * x + y = 3 * k + i <-> x = k /\ y = i).
Proof. unfold loc. lia. Qed.

Lemma enc_pos m x y : live m x -> loc y -> 3 * x + y <> 0.
Proof. unfold live, loc. lia. Qed.

Lemma new_edge m ip (x y z w : Z) : (forall t u, live m t -> loc u -> vtx m t u <> ip) ->
  (x = ip \/ y = ip) -> live m z -> loc w -> ends m z w <> (x, y) /\ ends m z w <> swp (x, y).
Proof.
  intros H E Lz Lw. rewrite ends_eq by exact Lw. pose proof (H z _ Lz (loc_nxt _ Lw)). pose proof (H z _ Lz (loc_prv _ Lw)).
  unfold swp. cbn. split; intros X; inversion X; destruct E; congruence.
Qed.

Section Split2.
Variables (m m' : mesh) (k i l j e f ip p a b q : Z).
Hypothesis HV : vertices_ok m.
Hypothesis HO : oriented m.
Hypothesis HA : adjacent m.
Hypothesis Lk : live m k.
Hypothesis Li : loc i.
Hypothesis HN : nbr m k i l j.
Hypothesis Ne : ~ live m e.
Hypothesis Nf : ~ live m f.
Hypothesis Nef : e <> f.
Hypothesis Hip : forall x y, live m x -> loc y -> vtx m x y <> ip.
Hypothesis Ep : vtx m k i = p.
Hypothesis Ea : vtx m k (inxt2 i) = a.
Hypothesis Eb : vtx m k (iprv2 i) = b.
Hypothesis Eq : vtx m l j = q.
Hypothesis Npq : p <> q.
Hypothesis HL : forall x, live m' x <-> live m x \/ x = e \/ x = f.
Hypothesis Vo : forall x y, live m x -> x <> k -> x <> l -> loc y -> vtx m' x y = vtx m x y.
Hypothesis Vk : vtx m' k i = p /\ vtx m' k (inxt2 i) = a /\ vtx m' k (iprv2 i) = ip.
Hypothesis Ve : vtx m' e i = p /\ vtx m' e (inxt2 i) = ip /\ vtx m' e (iprv2 i) = b.
Hypothesis Vl : vtx m' l j = q /\ vtx m' l (inxt2 j) = ip /\ vtx m' l (iprv2 j) = a.
Hypothesis Vf : vtx m' f j = q /\ vtx m' f (inxt2 j) = b /\ vtx m' f (iprv2 j) = ip.

Definition psi2 (n : Z) : Z :=
  if n =? 3 * k + inxt2 i then 3 * e + inxt2 i else if n =? 3 * l + iprv2 j then 3 * f + iprv2 j else n.

Hypothesis No : forall x y, live m x -> x <> k -> x <> l -> loc y -> nb m' x y = psi2 (nb m x y).
Hypothesis Nk : nb m' k i = 3 * l + j /\ nb m' k (inxt2 i) = 3 * e + iprv2 i /\ nb m' k (iprv2 i) = psi2 (nb m k (iprv2 i)).
Hypothesis Nel : nb m' e i = 3 * f + j /\ nb m' e (inxt2 i) = psi2 (nb m k (inxt2 i)) /\ nb m' e (iprv2 i) = 3 * k + inxt2 i.
Hypothesis Nl : nb m' l j = 3 * k + i /\ nb m' l (inxt2 j) = psi2 (nb m l (inxt2 j)) /\ nb m' l (iprv2 j) = 3 * f + inxt2 j.
Hypothesis Nfl : nb m' f j = 3 * e + i /\ nb m' f (inxt2 j) = 3 * l + iprv2 j /\ nb m' f (iprv2 j) = psi2 (nb m l (iprv2 j)).

Definition fr2 (x y : Z) : Prop :=
  (x = k /\ (y = i \/ y = inxt2 i)) \/ (x = e /\ (y = i \/ y = iprv2 i)) \/
  (x = l /\ (y = j \/ y = iprv2 j)) \/ (x = f /\ (y = j \/ y = inxt2 j)).
Definition ph2 (x y : Z) : Z * Z := if x =? e then (k, y) else if x =? f then (l, y) else (x, y).

Lemma fr2_dec x y : fr2 x y \/ ~ fr2 x y.
Proof. unfold fr2. clear - k i l j e f. lia. Qed.

(** The half-edges that are not new. *)
Lemma old2 x y : live m' x -> loc y -> ~ fr2 x y ->
  (live m x /\ x <> k /\ x <> l) \/ (x = k /\ y = iprv2 i) \/ (x = e /\ y = inxt2 i) \/ (x = l /\ y = inxt2 j) \/ (x = f /\ y = iprv2 j).
Proof.
  intros Lx Ly F. pose proof HN as (Ll & Lj & _). apply HL in Lx. unfold fr2 in F.
  destruct (Z.eq_dec x k) as [->|]; [destruct (loc_cases i y Li Ly) as [->|[->| ->]]; tauto|].
  destruct (Z.eq_dec x l) as [->|]; [destruct (loc_cases j y Lj Ly) as [->|[->| ->]]; tauto|].
  destruct Lx as [Lx|[->| ->]]; [tauto| |].
  - destruct (loc_cases i y Li Ly) as [->|[->| ->]]; tauto.
  - destruct (loc_cases j y Lj Ly) as [->|[->| ->]]; tauto.
Qed.

Lemma fr2_ends x y : fr2 x y ->
  (x = k /\ y = i /\ ends m' x y = (a, ip)) \/ (x = k /\ y = inxt2 i /\ ends m' x y = (ip, p)) \/
  (x = e /\ y = i /\ ends m' x y = (ip, b)) \/ (x = e /\ y = iprv2 i /\ ends m' x y = (p, ip)) \/
  (x = l /\ y = j /\ ends m' x y = (ip, a)) \/ (x = l /\ y = iprv2 j /\ ends m' x y = (q, ip)) \/
  (x = f /\ y = j /\ ends m' x y = (b, ip)) \/ (x = f /\ y = inxt2 j /\ ends m' x y = (ip, q)).
Proof.
  pose proof HN as (_ & Lj & _). destruct Vk as (K1 & K2 & K3), Ve as (E1 & E2 & E3), Vl as (L1 & L2 & L3), Vf as (F1 & F2 & F3).
  intros [(-> & [->| ->])|[(-> & [->| ->])|[(-> & [->| ->])|(-> & [->| ->])]]];
    rewrite ?ends_nxt, ?ends_prv, ?ends_eq by assumption.
  - left. repeat split. congruence.
  - right; left. repeat split. congruence.
  - do 2 right; left. repeat split. congruence.
  - do 3 right; left. repeat split. congruence.
  - do 4 right; left. repeat split. congruence.
  - do 5 right; left. repeat split. congruence.
  - do 6 right; left. repeat split. congruence.
  - do 7 right. repeat split. congruence.
Qed.

Lemma sp2_facts : live m l /\ loc j /\ l <> k /\ k <> e /\ k <> f /\ l <> e /\ l <> f /\
  p <> a /\ a <> b /\ b <> p /\ q <> a /\ q <> b /\ p <> ip /\ a <> ip /\ b <> ip /\ q <> ip /\
  vtx m l (inxt2 j) = b /\ vtx m l (iprv2 j) = a.
Proof.
  pose proof HN as (Ll & Lj & _). pose proof (nbr_neq _ _ _ _ _ HV Lk Li HN) as Nlk.
  destruct (nbr_verts _ _ _ _ _ Li HN) as [A B].
  destruct (dist3 m k i HV Lk Li) as (D1 & D2 & D3). destruct (dist3 m l j HV Ll Lj) as (D4 & D5 & D6).
  pose proof (Hip k i Lk Li). pose proof (Hip k _ Lk (loc_nxt _ Li)). pose proof (Hip k _ Lk (loc_prv _ Li)).
  pose proof (Hip l j Ll Lj).
  assert (k <> e) by (intros ->; contradiction). assert (k <> f) by (intros ->; contradiction).
  assert (l <> e) by (intros ->; contradiction). assert (l <> f) by (intros ->; contradiction).
  repeat split; try assumption; try congruence; apply Ll.
Qed.

Lemma psi2_0 : psi2 0 = 0.
Proof.
  pose proof sp2_facts as (Ll & Lj & _). unfold psi2.
  destruct (Z.eqb_spec 0 (3 * k + inxt2 i)) as [E|]; [symmetry in E; apply (enc_pos m) in E; [contradiction|exact Lk|apply loc_nxt, Li]|].
  destruct (Z.eqb_spec 0 (3 * l + iprv2 j)) as [E|]; [symmetry in E; apply (enc_pos m) in E; [contradiction|exact Ll|apply loc_prv, Lj]|].
  reflexivity.
Qed.

(** The half-edge that replaces an old one. *)
Lemma back2 z w : live m z -> loc w -> ~ (z = k /\ w = i) -> ~ (z = l /\ w = j) ->
  exists x y, live m' x /\ loc y /\ ~ fr2 x y /\ ph2 x y = (z, w) /\ psi2 (3 * z + w) = 3 * x + y.
Proof.
  pose proof sp2_facts as (Ll & Lj & N1 & N2 & N3 & N4 & N5 & _). intros Lz Lw Z1 Z2.
  pose proof (loc_nxt _ Li) as Li1. pose proof (loc_prv _ Lj) as Lj2.
  pose proof (nxt_neq _ Li). pose proof (nxt_neq_prv _ Li). pose proof (prv_neq _ Lj). pose proof (nxt_neq_prv _ Lj).
  unfold ph2, psi2, fr2.
  destruct (Z.eqb_spec (3 * z + w) (3 * k + inxt2 i)) as [E|E]; rewrite enc_dec in E by assumption.
  - destruct E as [-> ->]. exists e, (inxt2 i). split; [apply HL; auto|]. split; [assumption|]. split; [intuition congruence|].
    rewrite Z.eqb_refl. auto.
  - destruct (Z.eqb_spec (3 * z + w) (3 * l + iprv2 j)) as [E2|E2]; rewrite enc_dec in E2 by assumption.
    + destruct E2 as [-> ->]. exists f, (iprv2 j). split; [apply HL; auto|]. split; [assumption|]. split; [intuition congruence|].
      rewrite Z.eqb_refl. destruct (Z.eqb_spec f e); [congruence|]. auto.
    + exists z, w. assert (z <> e) by (intros ->; contradiction). assert (z <> f) by (intros ->; contradiction).
      split; [apply HL; auto|]. split; [assumption|]. split; [intuition congruence|].
      destruct (Z.eqb_spec z e); [contradiction|]. destruct (Z.eqb_spec z f); [contradiction|]. auto.
Qed.

Lemma sp2_nb x y : live m' x -> loc y -> ~ fr2 x y ->
  live m (fst (ph2 x y)) /\ loc (snd (ph2 x y)) /\ ends m (fst (ph2 x y)) (snd (ph2 x y)) = ends m' x y /\
  nb m' x y = psi2 (nb m (fst (ph2 x y)) (snd (ph2 x y))) /\
  ~ (fst (ph2 x y) = k /\ snd (ph2 x y) = i) /\ ~ (fst (ph2 x y) = l /\ snd (ph2 x y) = j).
Proof.
  intros Lx Ly F. pose proof sp2_facts as (Ll & Lj & N1 & N2 & N3 & N4 & N5 & D1 & D2 & D3 & D4 & D5 & D6 & D7 & D8 & D9 & A1 & A2).
  destruct Vk as (K1 & K2 & K3), Ve as (E1 & E2 & E3), Vl as (L1 & L2 & L3), Vf as (F1 & F2 & F3).
  pose proof (loc_nxt _ Li). pose proof (loc_prv _ Li). pose proof (loc_nxt _ Lj). pose proof (loc_prv _ Lj).
  pose proof (nxt_neq _ Li). pose proof (prv_neq _ Li). pose proof (nxt_neq _ Lj). pose proof (prv_neq _ Lj).
  unfold ph2. destruct (old2 x y Lx Ly F) as [(Lx0 & X1 & X2)|[(-> & ->)|[(-> & ->)|[(-> & ->)|(-> & ->)]]]].
  - assert (x <> e) by (intros ->; contradiction). assert (x <> f) by (intros ->; contradiction).
    destruct (Z.eqb_spec x e); [contradiction|]. destruct (Z.eqb_spec x f); [contradiction|]. cbn [fst snd].
    split; [exact Lx0|]. split; [exact Ly|]. split.
    { rewrite !ends_eq by exact Ly. rewrite !Vo by auto using loc_nxt, loc_prv. reflexivity. }
    split; [apply No; assumption|]. split; intros [? ?]; congruence.
  - destruct (Z.eqb_spec k e); [contradiction|]. destruct (Z.eqb_spec k f); [contradiction|]. cbn [fst snd].
    split; [exact Lk|]. split; [assumption|]. split; [rewrite !ends_prv by exact Li; congruence|].
    split; [apply Nk|]. split; intros [? ?]; congruence.
  - rewrite Z.eqb_refl. cbn [fst snd]. split; [exact Lk|]. split; [assumption|].
    split; [rewrite !ends_nxt by exact Li; congruence|]. split; [apply Nel|]. split; intros [? ?]; congruence.
  - destruct (Z.eqb_spec l e); [contradiction|]. destruct (Z.eqb_spec l f); [contradiction|]. cbn [fst snd].
    split; [exact Ll|]. split; [assumption|]. split; [rewrite !ends_nxt by exact Lj; congruence|].
    split; [apply Nl|]. split; intros [? ?]; congruence.
  - destruct (Z.eqb_spec f e); [congruence|]. rewrite Z.eqb_refl. cbn [fst snd]. split; [exact Ll|]. split; [assumption|].
    split; [rewrite !ends_prv by exact Lj; congruence|]. split; [apply Nfl|]. split; intros [? ?]; congruence.
Qed.

Lemma sp2_H1n x y : live m' x -> loc y -> ~ fr2 x y ->
  (nb m' x y = 0 /\ nb m (fst (ph2 x y)) (snd (ph2 x y)) = 0) \/
  (exists z w, live m' z /\ loc w /\ ~ fr2 z w /\ nb m' x y = 3 * z + w /\
     nb m (fst (ph2 x y)) (snd (ph2 x y)) = 3 * fst (ph2 z w) + snd (ph2 z w)).
Proof.
  intros Lx Ly F. destruct (sp2_nb x y Lx Ly F) as (A & B & _ & N & R1 & R2).
  pose proof sp2_facts as (Ll & Lj & _).
  destruct (Z.eq_dec (nb m (fst (ph2 x y)) (snd (ph2 x y))) 0) as [E|E].
  - left. rewrite N, E. split; [apply psi2_0|reflexivity].
  - right. destruct (nbr_of _ _ _ HO HA A B E) as (z0 & w0 & Lz0 & Lw0 & E1 & E2 & _).
    pose proof HN as (_ & _ & E3 & E4 & _).
    destruct (back2 z0 w0 Lz0 Lw0) as (z & w & Lz & Lw & Fz & P1 & P2).
    + intros [-> ->]. apply R2. rewrite E3 in E2. apply enc_dec in E2; try assumption. intuition.
    + intros [-> ->]. apply R1. rewrite E4 in E2. apply enc_dec in E2; try assumption. intuition.
    + exists z, w. rewrite P1, N, E1. repeat split; try assumption; apply Lz.
Qed.

Lemma sp2_H2 x y z w : live m' x -> loc y -> ~ fr2 x y -> live m' z -> loc w -> ~ fr2 z w ->
  ph2 x y = ph2 z w -> x = z /\ y = w.
Proof.
  intros Lx Ly Fx Lz Lw Fz.
  pose proof sp2_facts as (Ll & Lj & N1 & N2 & N3 & N4 & N5 & _).
  pose proof (nxt_neq_prv _ Li). pose proof (nxt_neq_prv _ Lj). unfold ph2.
  destruct (old2 x y Lx Ly Fx) as [(Lx0 & X1 & X2)|[(-> & ->)|[(-> & ->)|[(-> & ->)|(-> & ->)]]]];
  destruct (old2 z w Lz Lw Fz) as [(Lz0 & Z1 & Z2)|[(-> & ->)|[(-> & ->)|[(-> & ->)|(-> & ->)]]]];
  repeat match goal with |- context [?u =? ?v] => destruct (Z.eqb_spec u v); [|] end; intros E; inversion E; subst;
  try contradiction; try (split; congruence).
Qed.

Lemma sp2_live_f x y : fr2 x y -> live m' x /\ loc y.
Proof.
  pose proof sp2_facts as (Ll & Lj & _).
  unfold fr2. intros [(-> & D)|[(-> & D)|[(-> & D)|(-> & D)]]]; (split; [apply HL; auto|destruct D as [->| ->]; auto using loc_nxt, loc_prv]).
Qed.

Lemma sp2_H4 x y z w : fr2 x y -> fr2 z w -> ends m' x y = ends m' z w -> x = z /\ y = w.
Proof.
  intros Fx Fz. pose proof sp2_facts as (_ & _ & _ & _ & _ & _ & _ & D1 & D2 & D3 & D4 & D5 & D6 & D7 & D8 & D9 & _).
  pose proof (fr2_ends x y Fx) as [C|[C|[C|[C|[C|[C|[C|C]]]]]]]; destruct C as (-> & -> & ->);
  pose proof (fr2_ends z w Fz) as [C|[C|[C|[C|[C|[C|[C|C]]]]]]]; destruct C as (-> & -> & ->);
  intros E; inversion E; first [split; reflexivity | exfalso; congruence].
Qed.

Lemma sp2_pairs x y : fr2 x y -> exists z w, fr2 z w /\ nb m' x y = 3 * z + w /\ ends m' z w = swp (ends m' x y).
Proof.
  intros Fx. pose proof HN as (_ & Lj & _). destruct Nk as (K1 & K2 & _), Nel as (E1 & _ & E3), Nl as (L1 & _ & L3), Nfl as (F1 & F2 & _).
  destruct Vk as (K1' & K2' & K3'), Ve as (E1' & E2' & E3'), Vl as (L1' & L2' & L3'), Vf as (F1' & F2' & F3').
  pose proof (fr2_ends x y Fx) as C.
  destruct C as [C|[C|[C|[C|[C|[C|[C|C]]]]]]]; destruct C as (-> & -> & ->).
  - exists l, j. split; [unfold fr2; tauto|]. split; [exact K1|]. rewrite ends_eq by exact Lj. unfold swp; cbn. congruence.
  - exists e, (iprv2 i). split; [unfold fr2; tauto|]. split; [exact K2|]. rewrite ends_prv by exact Li. unfold swp; cbn. congruence.
  - exists f, j. split; [unfold fr2; tauto|]. split; [exact E1|]. rewrite ends_eq by exact Lj. unfold swp; cbn. congruence.
  - exists k, (inxt2 i). split; [unfold fr2; tauto|]. split; [exact E3|]. rewrite ends_nxt by exact Li. unfold swp; cbn. congruence.
  - exists k, i. split; [unfold fr2; tauto|]. split; [exact L1|]. rewrite ends_eq by exact Li. unfold swp; cbn. congruence.
  - exists f, (inxt2 j). split; [unfold fr2; tauto|]. split; [exact L3|]. rewrite ends_nxt by exact Lj. unfold swp; cbn. congruence.
  - exists e, i. split; [unfold fr2; tauto|]. split; [exact F1|]. rewrite ends_eq by exact Li. unfold swp; cbn. congruence.
  - exists l, (iprv2 j). split; [unfold fr2; tauto|]. split; [exact F2|]. rewrite ends_prv by exact Lj. unfold swp; cbn. congruence.
Qed.

Lemma sp2_H3 x y : fr2 x y -> forall z w, live m z -> loc w -> ends m z w <> ends m' x y /\ ends m z w <> swp (ends m' x y).
Proof.
  intros Fx z w Lz Lw. pose proof (fr2_ends x y Fx) as [C|[C|[C|[C|[C|[C|[C|C]]]]]]]; destruct C as (-> & -> & ->);
  (apply (new_edge m ip); auto).
Qed.

Lemma sp2_oriented : oriented m'.
Proof.
  apply (transport_oriented m m' fr2 ph2 HO); auto using fr2_dec.
  - intros x y Lx Ly F. destruct (sp2_nb x y Lx Ly F) as (A & B & C & _). auto.
  - intros; apply sp2_H2; assumption.
  - intros x y _ _ F. apply sp2_H3, F.
  - intros x y z w _ _ F _ _ G. apply sp2_H4; assumption.
Qed.

Lemma sp2_adjacent : adjacent m'.
Proof.
  apply (transport_adjacent m m' fr2 ph2 HA); auto using fr2_dec.
  - intros x y Lx Ly F. destruct (sp2_nb x y Lx Ly F) as (A & B & C & _). auto.
  - intros; apply sp2_H1n; assumption.
  - intros; apply sp2_H2; assumption.
  - intros x y _ _ F. apply sp2_H3, F.
  - intros x y z w _ _ F _ _ G. apply sp2_H4; assumption.
  - intros x y _ _ F. right. destruct (sp2_pairs x y F) as (z & w & Fz & E & E').
    destruct (sp2_live_f z w Fz). exists z, w. auto.
Qed.

Hypothesis Ht : forall x y, live m' x -> loc y -> ~ fr2 x y ->
  tag m' x y = tag m (fst (ph2 x y)) (snd (ph2 x y)) /\ edg m' x y = edg m (fst (ph2 x y)) (snd (ph2 x y)).
Hypothesis Hz : tag m' k (inxt2 i) = 0 /\ edg m' k (inxt2 i) = 0 /\ tag m' e (iprv2 i) = 0 /\ edg m' e (iprv2 i) = 0 /\
  tag m' l (iprv2 j) = 0 /\ edg m' l (iprv2 j) = 0 /\ tag m' f (inxt2 j) = 0 /\ edg m' f (inxt2 j) = 0.
Hypothesis Hk : tag m' k i = tag m k i /\ edg m' k i = edg m k i /\ tag m' e i = tag m k i /\ edg m' e i = edg m k i /\
  tag m' l j = tag m l j /\ edg m' l j = edg m l j /\ tag m' f j = tag m l j /\ edg m' f j = edg m l j.

Lemma agree_at mm x y z w : tags_agree mm -> live mm x -> loc y -> live mm z -> loc w -> nb mm x y = 3 * z + w ->
  tag mm z w = tag mm x y /\ edg mm z w = edg mm x y.
Proof.
  intros T Lx Ly Lz Lw E. destruct (T x y Lx Ly) as [A B]; [rewrite E; apply (enc_pos mm); assumption|].
  rewrite E, dec_div, dec_mod in A, B by exact Lw. auto.
Qed.

Lemma sp2_tags : tags_agree m -> tags_agree m'.
Proof.
  intros HT. pose proof sp2_facts as (Ll & Lj & _).
  apply (transport_tags m m' fr2 ph2 HO HA fr2_dec) with (T := tag m) (G := edg m).
  - intros x y Lx Ly F. destruct (sp2_nb x y Lx Ly F) as (A & B & C & _). auto.
  - intros; apply sp2_H1n; assumption.
  - intros; apply sp2_H2; assumption.
  - intros x y _ _ F. apply sp2_H3, F.
  - intros x y z w _ _ F _ _ G. apply sp2_H4; assumption.
  - intros x y _ _ F. right. destruct (sp2_pairs x y F) as (z & w & Fz & E & E').
    destruct (sp2_live_f z w Fz). exists z, w. auto.
  - intros. apply agree_at; assumption.
  - exact Ht.
  - intros x y z w Lx Ly F Lz Lw E. pose proof HN as (_ & _ & E3 & _).
    destruct (agree_at m k i l j HT Lk Li Ll Lj E3) as [T1 T2].
    destruct (sp2_pairs x y F) as (z' & w' & Fz & E1 & E2). rewrite E in E1.
    apply enc_dec in E1; [|exact Lw|apply (sp2_live_f z' w' Fz)]. destruct E1 as [<- <-].
    destruct Hz as (Z1 & Z2 & Z3 & Z4 & Z5 & Z6 & Z7 & Z8), Hk as (K1 & K2 & K3 & K4 & K5 & K6 & K7 & K8).
    pose proof (sp2_H4 z w) as U.
    pose proof (fr2_ends x y F) as C; destruct C as [C|[C|[C|[C|[C|[C|[C|C]]]]]]]; destruct C as (-> & -> & C); rewrite C in E2; unfold swp in E2; cbn in E2;
    pose proof (fr2_ends z w Fz) as C'; destruct C' as [C'|[C'|[C'|[C'|[C'|[C'|[C'|C']]]]]]]; destruct C' as (-> & -> & C');
    rewrite C' in E2; inversion E2; try (exfalso; pose proof sp2_facts; intuition congruence); split; congruence.
Qed.
End Split2.

(** ** Split of a boundary edge *)

Section Split1.
Variables (m m' : mesh) (k i e ip p a b : Z).
Hypothesis HV : vertices_ok m.
Hypothesis HO : oriented m.
Hypothesis HA : adjacent m.
Hypothesis Lk : live m k.
Hypothesis Li : loc i.
Hypothesis HN : nb m k i = 0.
Hypothesis Ne : ~ live m e.
Hypothesis Hip : forall x y, live m x -> loc y -> vtx m x y <> ip.
Hypothesis Ep : vtx m k i = p.
Hypothesis Ea : vtx m k (inxt2 i) = a.
Hypothesis Eb : vtx m k (iprv2 i) = b.
Hypothesis HL : forall x, live m' x <-> live m x \/ x = e.
Hypothesis Vo : forall x y, live m x -> x <> k -> loc y -> vtx m' x y = vtx m x y.
Hypothesis Vk : vtx m' k i = p /\ vtx m' k (inxt2 i) = a /\ vtx m' k (iprv2 i) = ip.
Hypothesis Ve : vtx m' e i = p /\ vtx m' e (inxt2 i) = ip /\ vtx m' e (iprv2 i) = b.

Definition psi1 (n : Z) : Z := if n =? 3 * k + inxt2 i then 3 * e + inxt2 i else n.

Hypothesis No : forall x y, live m x -> x <> k -> loc y -> nb m' x y = psi1 (nb m x y).
Hypothesis Nk : nb m' k i = 0 /\ nb m' k (inxt2 i) = 3 * e + iprv2 i /\ nb m' k (iprv2 i) = psi1 (nb m k (iprv2 i)).
Hypothesis Nel : nb m' e i = 0 /\ nb m' e (inxt2 i) = psi1 (nb m k (inxt2 i)) /\ nb m' e (iprv2 i) = 3 * k + inxt2 i.

Definition fr1 (x y : Z) : Prop := (x = k /\ (y = i \/ y = inxt2 i)) \/ (x = e /\ (y = i \/ y = iprv2 i)).
Definition ph1 (x y : Z) : Z * Z := if x =? e then (k, y) else (x, y).

Lemma fr1_dec x y : fr1 x y \/ ~ fr1 x y.
Proof. unfold fr1. clear - k i e. lia. Qed.

Lemma old1 x y : live m' x -> loc y -> ~ fr1 x y ->
  (live m x /\ x <> k) \/ (x = k /\ y = iprv2 i) \/ (x = e /\ y = inxt2 i).
Proof.
  intros Lx Ly F. apply HL in Lx. unfold fr1 in F.
  destruct (Z.eq_dec x k) as [->|]; [destruct (loc_cases i y Li Ly) as [->|[->| ->]]; tauto|].
  destruct Lx as [Lx| ->]; [tauto|]. destruct (loc_cases i y Li Ly) as [->|[->| ->]]; tauto.
Qed.

Lemma fr1_ends x y : fr1 x y ->
  (x = k /\ y = i /\ ends m' x y = (a, ip)) \/ (x = k /\ y = inxt2 i /\ ends m' x y = (ip, p)) \/
  (x = e /\ y = i /\ ends m' x y = (ip, b)) \/ (x = e /\ y = iprv2 i /\ ends m' x y = (p, ip)).
Proof.
  destruct Vk as (K1 & K2 & K3), Ve as (E1 & E2 & E3).
  intros [(-> & [->| ->])|(-> & [->| ->])]; rewrite ?ends_nxt, ?ends_prv, ?ends_eq by assumption.
  - left. repeat split. congruence.
  - right; left. repeat split. congruence.
  - do 2 right; left. repeat split. congruence.
  - do 3 right. repeat split. congruence.
Qed.

Lemma sp1_facts : k <> e /\ p <> a /\ a <> b /\ b <> p /\ p <> ip /\ a <> ip /\ b <> ip.
Proof.
  destruct (dist3 m k i HV Lk Li) as (D1 & D2 & D3).
  pose proof (Hip k i Lk Li). pose proof (Hip k _ Lk (loc_nxt _ Li)). pose proof (Hip k _ Lk (loc_prv _ Li)).
  assert (k <> e) by (intros ->; contradiction). repeat split; congruence.
Qed.

Lemma psi1_0 : psi1 0 = 0.
Proof.
  unfold psi1. destruct (Z.eqb_spec 0 (3 * k + inxt2 i)) as [E|]; [|reflexivity].
  symmetry in E; apply (enc_pos m) in E; [contradiction|exact Lk|apply loc_nxt, Li].
Qed.

Lemma back1 z w : live m z -> loc w -> ~ (z = k /\ w = i) ->
  exists x y, live m' x /\ loc y /\ ~ fr1 x y /\ ph1 x y = (z, w) /\ psi1 (3 * z + w) = 3 * x + y.
Proof.
  pose proof sp1_facts as (N1 & _). intros Lz Lw Z1. pose proof (loc_nxt _ Li) as Li1.
  pose proof (nxt_neq _ Li). pose proof (nxt_neq_prv _ Li). unfold ph1, psi1, fr1.
  destruct (Z.eqb_spec (3 * z + w) (3 * k + inxt2 i)) as [E|E]; rewrite enc_dec in E by assumption.
  - destruct E as [-> ->]. exists e, (inxt2 i). split; [apply HL; auto|]. split; [assumption|]. split; [intuition congruence|].
    rewrite Z.eqb_refl. auto.
  - exists z, w. assert (z <> e) by (intros ->; contradiction).
    split; [apply HL; auto|]. split; [assumption|]. split; [intuition congruence|].
    destruct (Z.eqb_spec z e); [contradiction|]. auto.
Qed.

Lemma sp1_nb x y : live m' x -> loc y -> ~ fr1 x y ->
  live m (fst (ph1 x y)) /\ loc (snd (ph1 x y)) /\ ends m (fst (ph1 x y)) (snd (ph1 x y)) = ends m' x y /\
  nb m' x y = psi1 (nb m (fst (ph1 x y)) (snd (ph1 x y))).
Proof.
  intros Lx Ly F. pose proof sp1_facts as (N1 & D1 & D2 & D3 & D4 & D5 & D6).
  destruct Vk as (K1 & K2 & K3), Ve as (E1 & E2 & E3).
  pose proof (loc_nxt _ Li). pose proof (loc_prv _ Li). pose proof (nxt_neq _ Li). pose proof (prv_neq _ Li).
  unfold ph1. destruct (old1 x y Lx Ly F) as [(Lx0 & X1)|[(-> & ->)|(-> & ->)]].
  - assert (x <> e) by (intros ->; contradiction).
    destruct (Z.eqb_spec x e); [contradiction|]. cbn [fst snd].
    split; [exact Lx0|]. split; [exact Ly|]. split.
    { rewrite !ends_eq by exact Ly. rewrite !Vo by auto using loc_nxt, loc_prv. reflexivity. }
    apply No; assumption.
  - destruct (Z.eqb_spec k e); [contradiction|]. cbn [fst snd].
    split; [exact Lk|]. split; [assumption|]. split; [rewrite !ends_prv by exact Li; congruence|]. apply Nk.
  - rewrite Z.eqb_refl. cbn [fst snd]. split; [exact Lk|]. split; [assumption|].
    split; [rewrite !ends_nxt by exact Li; congruence|]. apply Nel.
Qed.

Lemma sp1_H1n x y : live m' x -> loc y -> ~ fr1 x y ->
  (nb m' x y = 0 /\ nb m (fst (ph1 x y)) (snd (ph1 x y)) = 0) \/
  (exists z w, live m' z /\ loc w /\ ~ fr1 z w /\ nb m' x y = 3 * z + w /\
     nb m (fst (ph1 x y)) (snd (ph1 x y)) = 3 * fst (ph1 z w) + snd (ph1 z w)).
Proof.
  intros Lx Ly F. destruct (sp1_nb x y Lx Ly F) as (A & B & _ & N).
  destruct (Z.eq_dec (nb m (fst (ph1 x y)) (snd (ph1 x y))) 0) as [E|E].
  - left. rewrite N, E. split; [apply psi1_0|reflexivity].
  - right. destruct (nbr_of _ _ _ HO HA A B E) as (z0 & w0 & Lz0 & Lw0 & E1 & E2 & _).
    destruct (back1 z0 w0 Lz0 Lw0) as (z & w & Lz & Lw & Fz & P1 & P2).
    + intros [-> ->]. rewrite HN in E2. symmetry in E2. apply (enc_pos m) in E2; assumption.
    + exists z, w. rewrite P1, N, E1. split; [exact Lz|]. split; [exact Lw|]. split; [exact Fz|]. split; [exact P2|reflexivity].
Qed.

Lemma sp1_H2 x y z w : live m' x -> loc y -> ~ fr1 x y -> live m' z -> loc w -> ~ fr1 z w ->
  ph1 x y = ph1 z w -> x = z /\ y = w.
Proof.
  intros Lx Ly Fx Lz Lw Fz. pose proof sp1_facts as (N1 & _). pose proof (nxt_neq_prv _ Li). unfold ph1.
  destruct (old1 x y Lx Ly Fx) as [(Lx0 & X1)|[(-> & ->)|(-> & ->)]];
  destruct (old1 z w Lz Lw Fz) as [(Lz0 & Z1)|[(-> & ->)|(-> & ->)]];
  repeat match goal with |- context [?u =? ?v] => destruct (Z.eqb_spec u v); [|] end; intros E; inversion E; subst;
  try contradiction; try (split; congruence).
Qed.

Lemma sp1_live_f x y : fr1 x y -> live m' x /\ loc y.
Proof.
  unfold fr1. intros [(-> & D)|(-> & D)]; (split; [apply HL; auto|destruct D as [->| ->]; auto using loc_nxt, loc_prv]).
Qed.

Lemma sp1_H4 x y z w : fr1 x y -> fr1 z w -> ends m' x y = ends m' z w -> x = z /\ y = w.
Proof.
  intros Fx Fz. pose proof sp1_facts as (N1 & D1 & D2 & D3 & D4 & D5 & D6).
  pose proof (fr1_ends x y Fx) as [C|[C|[C|C]]]; destruct C as (-> & -> & ->);
  pose proof (fr1_ends z w Fz) as [C|[C|[C|C]]]; destruct C as (-> & -> & ->);
  intros E; inversion E; first [split; reflexivity | exfalso; congruence].
Qed.

Lemma sp1_H5 x y : fr1 x y ->
  (nb m' x y = 0 /\ forall z w, live m' z -> loc w -> fr1 z w -> ends m' z w <> swp (ends m' x y)) \/
  (exists z w, fr1 z w /\ nb m' x y = 3 * z + w /\ ends m' z w = swp (ends m' x y)).
Proof.
  intros Fx. pose proof sp1_facts as (N1 & D1 & D2 & D3 & D4 & D5 & D6).
  destruct Nk as (K1 & K2 & _), Nel as (E1 & _ & E3).
  destruct Vk as (K1' & K2' & K3'), Ve as (E1' & E2' & E3').
  pose proof (fr1_ends x y Fx) as C. destruct C as [C|[C|[C|C]]]; destruct C as (-> & -> & ->).
  - left. split; [exact K1|]. intros z w _ _ Fz. pose proof (fr1_ends z w Fz) as [C|[C|[C|C]]]; destruct C as (_ & _ & ->);
    unfold swp; cbn; intros E; inversion E; congruence.
  - right. exists e, (iprv2 i). split; [unfold fr1; tauto|]. split; [exact K2|]. rewrite ends_prv by exact Li. unfold swp; cbn. congruence.
  - left. split; [exact E1|]. intros z w _ _ Fz. pose proof (fr1_ends z w Fz) as [C|[C|[C|C]]]; destruct C as (_ & _ & ->);
    unfold swp; cbn; intros E; inversion E; congruence.
  - right. exists k, (inxt2 i). split; [unfold fr1; tauto|]. split; [exact E3|]. rewrite ends_nxt by exact Li. unfold swp; cbn. congruence.
Qed.

Lemma sp1_H3 x y : fr1 x y -> forall z w, live m z -> loc w -> ends m z w <> ends m' x y /\ ends m z w <> swp (ends m' x y).
Proof.
  intros Fx z w Lz Lw. pose proof (fr1_ends x y Fx) as [C|[C|[C|C]]]; destruct C as (-> & -> & ->);
  (apply (new_edge m ip); auto).
Qed.

Hypothesis Ht : forall x y, live m' x -> loc y -> ~ fr1 x y ->
  tag m' x y = tag m (fst (ph1 x y)) (snd (ph1 x y)) /\ edg m' x y = edg m (fst (ph1 x y)) (snd (ph1 x y)).
Hypothesis Hz : tag m' k (inxt2 i) = 0 /\ edg m' k (inxt2 i) = 0 /\ tag m' e (iprv2 i) = 0 /\ edg m' e (iprv2 i) = 0.

Lemma sp1_all : oriented m' /\ adjacent m' /\ (tags_agree m -> tags_agree m').
Proof.
  assert (G1 : forall x y, live m' x -> loc y -> ~ fr1 x y ->
    live m (fst (ph1 x y)) /\ loc (snd (ph1 x y)) /\ ends m (fst (ph1 x y)) (snd (ph1 x y)) = ends m' x y).
  { intros x y Lx Ly F. destruct (sp1_nb x y Lx Ly F) as (A & B & C & _). auto. }
  assert (G3 : forall x y, live m' x -> loc y -> fr1 x y ->
    forall z w, live m z -> loc w -> ends m z w <> ends m' x y /\ ends m z w <> swp (ends m' x y)).
  { intros x y _ _ F. apply sp1_H3, F. }
  assert (G4 : forall x y z w, live m' x -> loc y -> fr1 x y -> live m' z -> loc w -> fr1 z w ->
    ends m' x y = ends m' z w -> x = z /\ y = w).
  { intros x y z w _ _ F _ _ G. apply sp1_H4; assumption. }
  assert (G5 : forall x y, live m' x -> loc y -> fr1 x y ->
    (nb m' x y = 0 /\ forall z w, live m' z -> loc w -> fr1 z w -> ends m' z w <> swp (ends m' x y)) \/
    (exists z w, live m' z /\ loc w /\ nb m' x y = 3 * z + w /\ ends m' z w = swp (ends m' x y))).
  { intros x y _ _ F. destruct (sp1_H5 x y F) as [H|(z & w & Fz & E & E')]; [left; exact H|right].
    destruct (sp1_live_f z w Fz). exists z, w. auto. }
  split; [exact (transport_oriented m m' fr1 ph1 HO fr1_dec G1 sp1_H2 G3 G4)|].
  split; [exact (transport_adjacent m m' fr1 ph1 HA fr1_dec G1 sp1_H1n sp1_H2 G3 G4 G5)|].
  intros HT. apply (transport_tags m m' fr1 ph1 HO HA fr1_dec G1 sp1_H1n sp1_H2 G3 G4 G5 (tag m) (edg m)).
  - intros. apply agree_at; assumption.
  - exact Ht.
  - intros x y z w Lx Ly F Lz Lw E. destruct Hz as (Z1 & Z2 & Z3 & Z4). destruct Nk as (K1 & K2 & _), Nel as (E1 & _ & E3).
    pose proof (loc_nxt _ Li). pose proof (loc_prv _ Li).
    destruct F as [(-> & [->| ->])|(-> & [->| ->])].
    + rewrite K1 in E. symmetry in E. apply (enc_pos m') in E; [contradiction|assumption|assumption].
    + rewrite K2 in E. apply enc_dec in E; try assumption. destruct E as [<- <-]. split; congruence.
    + rewrite E1 in E. symmetry in E. apply (enc_pos m') in E; [contradiction|assumption|assumption].
    + rewrite E3 in E. apply enc_dec in E; try assumption. destruct E as [<- <-]. split; congruence.
Qed.
End Split1.

(** ** [MMG2D_split1b] *)

(** Triangle [t] has the vertices [x], [y], [z], in this order, from local vertex [u]. *)
Definition tri_at (m : mesh) (t u x y z : Z) : Prop :=
  vtx m t u = x /\ vtx m t (inxt2 u) = y /\ vtx m t (iprv2 u) = z.

Lemma same_live_alive m m' p : same_live m m' -> alive m' p <-> alive m p.
Proof. intros (_ & E & _). unfold alive. rewrite E. reflexivity. Qed.

Lemma same_conf m m' : same_live m m' -> vertices_ok m -> oriented m -> adjacent m ->
  vertices_ok m' /\ oriented m' /\ adjacent m' /\ (tags_agree m -> tags_agree m').
Proof.
  intros S V O A. pose proof S as (L & P & F & N).
  assert (Vx : forall x y, live m x -> vtx m' x y = vtx m x y) by (intros; apply F; assumption).
  assert (Ex : forall x y, live m x -> ends m' x y = ends m x y) by (intros; unfold ends; rewrite !Vx by assumption; reflexivity).
  split; [|split; [|split]].
  - intros x Lx. apply L in Lx. rewrite !(same_live_alive m m') by exact S. rewrite !Vx by exact Lx. apply V, Lx.
  - intros x y z w Lx Lz Ly Lw. apply L in Lx. apply L in Lz. rewrite !Ex by assumption. apply O; assumption.
  - intros x y Lx Ly. apply L in Lx. rewrite N, Ex by assumption. destruct (A x y Lx Ly) as [[E H]|(z & w & Lz & Lw & E & E')].
    + left. split; [exact E|]. intros z w Lz Lw. apply L in Lz. rewrite Ex by exact Lz. apply H; assumption.
    + right. exists z, w. rewrite (Ex z) by exact Lz. split; [apply L, Lz|]. auto.
  - intros T x y Lx Ly E. apply L in Lx. rewrite N in * by assumption.
    destruct (nbr_of _ _ _ O A Lx Ly E) as (z & w & Lz & Lw & E1 & _).
    destruct (agree_at m x y z w T Lx Ly Lz Lw E1) as [T1 T2].
    rewrite E1, dec_div, dec_mod by exact Lw. destruct (F x y Lx) as (_ & -> & ->), (F z w Lz) as (_ & -> & ->). auto.
Qed.

Lemma pos_vtx m x y : vertices_ok m -> live m x -> loc y -> 0 < vtx m x y.
Proof. intros V L Ly. destruct (alive_at m x y V L Ly) as [H _]. lia. Qed.

Lemma live_use m m' e : same_frame m m' -> intab m e ->
  0 < vtx m' e 0 -> (forall x, x <> e -> live m x -> 0 < vtx m' x 0) -> (forall x, x <> e -> 0 < vtx m' x 0 -> 0 < vtx m x 0 \/ live m x) ->
  forall x, live m' x <-> live m x \/ x = e.
Proof.
  intros F I E A B x. destruct F as (F1 & _). unfold live in *. rewrite F1.
  change (tv (aget (m_tri m') x) 0) with (vtx m' x 0). change (tv (aget (m_tri m) x) 0) with (vtx m x 0) in *.
  destruct (Z.eq_dec x e) as [->|N].
  - split; [auto|]. intros _. split; [destruct I; lia|exact E].
  - split.
    + intros [H1 H2]. left. destruct (B x N H2) as [H|H]; auto.
    + intros [H|H]; [|contradiction]. split; [apply H|]. apply (A x N H).
Qed.

Lemma at2_dec_false k i x y : ~ (x = k /\ y = i) -> at2 k i x y = false.
Proof. intros N. destruct (at2_dec k i x y) as [(A & B & _)|(_ & E)]; [exfalso; auto|exact E]. Qed.

Section HalfUse.
Variables (m : mesh) (k e c d ip : Z).
Hypothesis HT : tables_but m e.
Hypothesis Lk : live m k.
Hypothesis Lc : loc c.
Hypothesis Ld : loc d.
Hypothesis Ncd : c <> d.
Hypothesis Hpos : forall y, loc y -> 0 < vtx m k y.
Hypothesis Hip : 0 < ip.
Hypothesis HM : nb m k c / 3 = 0 \/ (live m (nb m k c / 3) /\ nb m k c / 3 <> k).

Lemma half_use : exists m', half_split m k e c d ip = Ret m' /\ same_frame m m' /\ tables_ok m' /\
  (forall x, live m' x <-> live m x \/ x = e) /\
  (forall x y, vtx m' x y = if x =? e then (if y =? c then ip else vtx m k y)
                            else if at2 k d x y then ip else vtx m x y) /\
  (forall x y, tag m' x y = if x =? e then (if y =? d then 0 else tag m k y)
                            else if at2 k c x y then 0 else tag m x y) /\
  (forall x y, edg m' x y = if x =? e then (if y =? d then 0 else edg m k y)
                            else if at2 k c x y then 0 else edg m x y) /\
  (forall x y, loc y -> nb m' x y =
     if x =? e then (if y =? d then 3 * k + c else nb m k y)
     else if at2 k c x y then 3 * e + d
     else if negb (nb m k c / 3 =? 0) && at2 (nb m k c / 3) (nb m k c mod 3) x y then 3 * e + c
     else nb m x y).
Proof.
  pose proof (tables_but_intab _ _ HT) as Ie. pose proof (tables_but_ok _ _ HT) as HT'.
  pose proof (live_intab m k HT' Lk) as Ik. pose proof HT as (_ & _ & _ & _ & _ & _ & _ & _ & Ne).
  assert (Nek : e <> k) by (intros ->; contradiction). assert (L0 : loc 0) by (left; reflexivity).
  destruct (half_split_run m k e c d ip Ik Ie Nek Lc Ld Ncd) as (m' & Er & Fr & V & T & E & N).
  { destruct HM as [H|[H H']]; [left; exact H|right]. split; [apply live_intab; assumption|].
    split; [exact H'|]. intros X. rewrite X in H. contradiction. }
  exists m'. split; [exact Er|]. split; [exact Fr|].
  assert (LL : forall x, live m' x <-> live m x \/ x = e).
  { apply live_use; try assumption.
    - rewrite V, Z.eqb_refl. destruct (Z.eqb_spec 0 c); [lia|auto].
    - intros x Nx Lx. rewrite V. destruct (Z.eqb_spec x e); [contradiction|].
      destruct (at2_dec k d x 0) as [(_ & _ & ->)|(_ & ->)]; [exact Hip|apply Lx].
    - intros x Nx. rewrite V. destruct (Z.eqb_spec x e); [contradiction|].
      destruct (at2_dec k d x 0) as [(-> & _ & ->)|(_ & ->)]; [right; exact Lk|left; assumption]. }
  split; [|auto]. apply (tables_use m m' e); try assumption.
  intros x Nx Nxe. rewrite V. destruct (Z.eqb_spec x e); [contradiction|]. rewrite at2_k; [reflexivity|].
  intros ->. contradiction.
Qed.
End HalfUse.

Section Split1b.
Variables (m : mesh) (k i ip p a b : Z).
Hypothesis HT : tables_ok m.
Hypothesis HV : vertices_ok m.
Hypothesis HO : oriented m.
Hypothesis HA : adjacent m.
Hypothesis Lk : live m k.
Hypothesis Li : loc i.
Hypothesis Aip : alive m ip.
Hypothesis Hip : forall x y, live m x -> loc y -> vtx m x y <> ip.
Hypothesis Ep : vtx m k i = p.
Hypothesis Ea : vtx m k (inxt2 i) = a.
Hypothesis Eb : vtx m k (iprv2 i) = b.

(** The first half of the split, seen from the mesh before the allocation. *)
Lemma first_half : exists e mv m1, newElt_re m = Ret (e, mv, m1) /\ same_live m m1 /\
  (e = 0 -> m_nil m = 0) /\
  (e <> 0 -> exists m2, half_split m1 k e (inxt2 i) (iprv2 i) ip = Ret m2 /\ ~ live m e /\ 1 <= e /\ tables_ok m2 /\
    get_adj m1 k i = Ret (nb m k i) /\
    m_ptag m2 = m_ptag m /\ m_nil m2 = m_nil m1 /\
    (m_nil m <> 0 -> e = m_nil m /\ m_nil m1 = vtx m (m_nil m) 2) /\
    (forall x, live m2 x <-> live m x \/ x = e) /\
    (forall x y, loc y -> live m2 x -> vtx m2 x y = if x =? e then (if y =? inxt2 i then ip else vtx m k y)
                            else if at2 k (iprv2 i) x y then ip else vtx m x y) /\
    (forall x y, live m2 x -> tag m2 x y = if x =? e then (if y =? iprv2 i then 0 else tag m k y)
                              else if at2 k (inxt2 i) x y then 0 else tag m x y) /\
    (forall x y, live m2 x -> edg m2 x y = if x =? e then (if y =? iprv2 i then 0 else edg m k y)
                              else if at2 k (inxt2 i) x y then 0 else edg m x y) /\
    (forall x y, loc y -> live m2 x -> nb m2 x y =
       if x =? e then (if y =? iprv2 i then 3 * k + inxt2 i else nb m k y)
       else if at2 k (inxt2 i) x y then 3 * e + iprv2 i
       else if nb m x y =? 3 * k + inxt2 i then 3 * e + inxt2 i else nb m x y)).
Proof.
  destruct (newElt_re_ok m HT) as (e & mv & m1 & E1 & S1 & T1 & R1).
  exists e, mv, m1. split; [exact E1|]. split; [exact S1|].
  split.
  { intros E0. destruct (Z.eq_dec (m_nil m) 0); [assumption|]. destruct (R1 n) as [H _]. congruence. }
  intros Ne0. destruct T1 as [T1|T1]; [contradiction|].
  pose proof (loc_nxt _ Li) as Li1. pose proof (loc_prv _ Li) as Li2.
  destruct (same_conf m m1 S1 HV HO HA) as (HV1 & HO1 & HA1 & _). pose proof S1 as (L1 & P1 & V1 & N1).
  assert (Lk1 : live m1 k) by (apply L1, Lk).
  destruct (half_use m1 k e (inxt2 i) (iprv2 i) ip T1 Lk1 Li1 Li2 (nxt_neq_prv _ Li)) as (m2 & E2 & F2 & T2 & L2 & V2 & G2 & D2 & N2).
  - intros y Ly. apply pos_vtx; assumption.
  - destruct Aip. lia.
  - destruct (nb_read m1 k (inxt2 i) HO1 HA1 Lk1 Li1) as [[_ H]|H]; [left; exact H|right].
    split; [apply H|]. exact (nbr_neq _ _ _ _ _ HV1 Lk1 Li1 H).
  - exists m2. pose proof T1 as (_ & _ & _ & _ & _ & _ & _ & Be & Ne).
    split; [exact E2|]. split; [intros H; apply Ne, L1, H|]. split; [lia|]. split; [exact T2|].
    split. { rewrite get_adj_ok; [rewrite N1 by assumption; reflexivity| |exact Li]. apply live_intab; [apply (tables_but_ok _ _ T1)|exact Lk1]. }
    pose proof F2 as (_ & _ & F3 & F4 & _). split; [congruence|]. split; [exact F4|].
    split; [intros H; destruct (R1 H) as (A & _ & B & _); auto|].
    split; [intros x; rewrite L2, L1; reflexivity|].
    assert (LX : forall x, live m2 x -> x <> e -> live m x).
    { intros x Lx Nx. apply L2 in Lx. destruct Lx as [Lx|Lx]; [apply L1, Lx|contradiction]. }
    split; [|split; [|split]].
    + intros x y Ly Lx. rewrite V2. destruct (Z.eqb_spec x e) as [->|Nx].
      * destruct (y =? inxt2 i); [reflexivity|]. apply V1, Lk.
      * destruct (at2 k (iprv2 i) x y); [reflexivity|]. apply V1, LX; assumption.
    + intros x y Lx. rewrite G2. destruct (Z.eqb_spec x e) as [->|Nx].
      * destruct (y =? iprv2 i); [reflexivity|]. apply V1, Lk.
      * destruct (at2 k (inxt2 i) x y); [reflexivity|]. apply V1, LX; assumption.
    + intros x y Lx. rewrite D2. destruct (Z.eqb_spec x e) as [->|Nx].
      * destruct (y =? iprv2 i); [reflexivity|]. apply V1, Lk.
      * destruct (at2 k (inxt2 i) x y); [reflexivity|]. apply V1, LX; assumption.
    + intros x y Ly Lx. rewrite N2 by exact Ly. rewrite (N1 k (inxt2 i)) by assumption.
      destruct (Z.eqb_spec x e) as [->|Nx].
      * destruct (y =? iprv2 i); [reflexivity|]. apply N1; assumption.
      * destruct (at2_dec k (inxt2 i) x y) as [(-> & -> & ->)|(N & ->)]; [reflexivity|].
        pose proof (LX x Lx Nx) as Lx0. rewrite (N1 x y) by assumption.
        destruct (nb_read m k (inxt2 i) HO HA Lk Li1) as [[H0 H1]|H].
        -- rewrite H1. cbn [Z.eqb negb andb]. destruct (Z.eqb_spec (nb m x y) (3 * k + inxt2 i)) as [X|X]; [|reflexivity].
           exfalso. destruct (nbr_of m x y HO HA Lx0 Ly) as (z & w & _ & Lw & Z1 & Z2 & _); [rewrite X; apply (enc_pos m); assumption|].
           rewrite X in Z1. apply enc_dec in Z1; [|assumption|assumption]. destruct Z1 as [<- <-].
           rewrite H0 in Z2. symmetry in Z2. apply (enc_pos m) in Z2; assumption.
        -- remember (nb m k (inxt2 i) / 3) as z. remember (nb m k (inxt2 i) mod 3) as w. destruct H as (Lz & Lw & Z1 & Z2 & _).
           assert (z =? 0 = false) as -> by (apply Z.eqb_neq; unfold live in Lz; lia). cbn [negb andb].
           destruct (at2_dec z w x y) as [(-> & -> & ->)|(N' & ->)].
           ++ rewrite Z2, Z.eqb_refl. reflexivity.
           ++ destruct (Z.eqb_spec (nb m x y) (3 * k + inxt2 i)) as [X|X]; [|reflexivity].
              exfalso. destruct (nbr_of m x y HO HA Lx0 Ly) as (z' & w' & _ & Lw' & Z1' & Z2' & _); [rewrite X; apply (enc_pos m); assumption|].
              rewrite X in Z1'. apply enc_dec in Z1'; [|assumption|assumption]. destruct Z1' as [<- <-].
              rewrite Z1 in Z2'. apply enc_dec in Z2'; [|assumption|assumption]. destruct Z2'. apply N'. split; congruence.
Qed.

Lemma split1b_bdy : nb m k i = 0 ->
  exists r m', split1b m k i ip = Ret (r, m') /\ m_ptag m' = m_ptag m /\
  ((r = 0 /\ m_nil m = 0 /\ same_live m m') \/
   (r = 1 /\ conforming m' /\ (tags_agree m -> tags_agree m') /\
    exists e, ~ live m e /\ (forall x, live m' x <-> live m x \/ x = e) /\
      tri_at m' k i p a ip /\ tri_at m' e i p ip b /\
      (forall x y, live m x -> x <> k -> loc y -> vtx m' x y = vtx m x y))).
Proof.
  intros N0. destruct first_half as (e & mv & m1 & E1 & S1 & Z1 & H). unfold split1b. rewrite E1. cbn [bind].
  destruct (Z.eqb_spec e 0) as [E0|Ne0].
  { exists 0, m1. split; [reflexivity|]. split; [apply S1|]. left. auto. }
  destruct (H Ne0) as (m2 & E2 & Nle & Be & T2 & Ga & P2 & _ & _ & L2 & V2 & G2 & D2 & N2).
  rewrite Ga, N0. cbn [bind]. rewrite E2. cbn [bind]. change (0 / 3 =? 0) with true. cbv iota.
  exists 1, m2. split; [reflexivity|]. split; [exact P2|]. right. split; [reflexivity|].
  pose proof (loc_nxt _ Li) as Li1. pose proof (loc_prv _ Li) as Li2.
  pose proof (nxt_neq _ Li) as X1. pose proof (prv_neq _ Li) as X2. pose proof (nxt_neq_prv _ Li) as X3.
  assert (Nke : k <> e) by (intros ->; contradiction).
  assert (Le : live m2 e) by (apply L2; auto). assert (Lk2 : live m2 k) by (apply L2; auto).
  assert (Vk : tri_at m2 k i p a ip).
  { unfold tri_at. rewrite !V2 by assumption. destruct (Z.eqb_spec k e); [contradiction|].
    rewrite (at2_i k (iprv2 i) k i), (at2_i k (iprv2 i) k (inxt2 i)), at2_same by congruence. auto. }
  assert (Ve : tri_at m2 e i p ip b).
  { unfold tri_at. rewrite !V2 by assumption. rewrite !Z.eqb_refl.
    destruct (Z.eqb_spec i (inxt2 i)); [congruence|]. destruct (Z.eqb_spec (iprv2 i) (inxt2 i)); [congruence|]. auto. }
  assert (Vo : forall x y, live m x -> x <> k -> loc y -> vtx m2 x y = vtx m x y).
  { intros x y Lx Nx Ly. rewrite V2; [|exact Ly|apply L2; auto]. assert (x <> e) by (intros ->; contradiction).
    destruct (Z.eqb_spec x e); [contradiction|]. rewrite at2_k by exact Nx. reflexivity. }
  assert (Hall : oriented m2 /\ adjacent m2 /\ (tags_agree m -> tags_agree m2)).
  { apply (sp1_all m m2 k i e ip p a b HV HO HA Lk Li N0 Nle Hip Ep Ea Eb L2 Vo Vk Ve).
    - intros x y Lx Nx Ly. rewrite N2; [|exact Ly|apply L2; auto]. assert (x <> e) by (intros ->; contradiction).
      destruct (Z.eqb_spec x e); [contradiction|]. rewrite at2_k by exact Nx. reflexivity.
    - rewrite !N2 by assumption. destruct (Z.eqb_spec k e); [contradiction|].
      rewrite (at2_i k (inxt2 i) k i), (at2_i k (inxt2 i) k (iprv2 i)), at2_same by congruence.
      split; [|split; reflexivity]. rewrite N0.
      destruct (Z.eqb_spec 0 (3 * k + inxt2 i)) as [X|X]; [|reflexivity]. symmetry in X. apply (enc_pos m) in X; tauto.
    - rewrite !N2 by assumption. rewrite !Z.eqb_refl. destruct (Z.eqb_spec i (iprv2 i)); [congruence|].
      destruct (Z.eqb_spec (inxt2 i) (iprv2 i)); [congruence|]. split; [exact N0|]. split; [|reflexivity].
      unfold psi1. destruct (Z.eqb_spec (nb m k (inxt2 i)) (3 * k + inxt2 i)) as [X|X]; [|reflexivity].
      exfalso. destruct (nbr_of m k (inxt2 i) HO HA Lk Li1) as (z & w & HNz); [rewrite X; apply (enc_pos m); assumption|].
      apply (nbr_neq _ _ _ _ _ HV Lk Li1 HNz). destruct HNz as (_ & Lw & Z2 & _). rewrite X in Z2. apply enc_dec in Z2; try assumption. intuition.
    - intros x y Lx Ly F. rewrite G2, D2 by exact Lx. unfold ph1, fr1 in *. destruct (Z.eqb_spec x e) as [->|Nx]; cbn [fst snd].
      + destruct (Z.eqb_spec y (iprv2 i)); [tauto|]. auto.
      + rewrite at2_dec_false by (intros [-> ->]; tauto). auto.
    - rewrite !G2, !D2 by assumption. destruct (Z.eqb_spec k e); [contradiction|]. rewrite at2_same, !Z.eqb_refl. auto. }
  destruct Hall as (O2 & A2 & T'). split; [|split; [exact T'|]].
  - split; [exact T2|]. split; [|split; assumption].
    intros x Lx. pose proof Lx as Lx'. apply L2 in Lx.
    assert (AA : forall z, alive m z -> alive m2 z) by (intros z Hz; unfold alive; rewrite P2; exact Hz).
    destruct (dist3 m k i HV Lk Li) as (D1 & D3 & D4). pose proof (Hip k i Lk Li). pose proof (Hip k _ Lk Li1). pose proof (Hip k _ Lk Li2).
    pose proof (alive_at m k i HV Lk Li). pose proof (alive_at m k _ HV Lk Li1). pose proof (alive_at m k _ HV Lk Li2).
    destruct (Z.eq_dec x k) as [->|Nx].
    { destruct Vk as (Q1 & Q2 & Q3). apply (vertices_at m2 k i Li); rewrite ?Q1, ?Q2, ?Q3; subst p a b; try apply AA; congruence || assumption. }
    destruct Lx as [Lx| ->].
    + assert (Y : forall y, loc y -> vtx m2 x y = vtx m x y) by (intros; apply Vo; assumption).
      rewrite !Y by (unfold loc; auto). destruct (HV x Lx) as (B1 & B2 & B3 & B4). auto 10.
    + destruct Ve as (Q1 & Q2 & Q3). apply (vertices_at m2 e i Li); rewrite ?Q1, ?Q2, ?Q3; subst p a b; try apply AA; congruence || assumption.
  - exists e. auto 10.
Qed.
End Split1b.
