(** Collapse of a vertex on another one: the mesh after the collapse is conforming. *)
From Coq Require Import ZArith List Lia Bool.
From Verif Require Import CBase Op2Model Op2Spec Op2Proofs Op2Split Op2Split2.
Import ListNotations.
Open Scope Z_scope.

(** ** Half-edges of the new mesh come from half-edges of the old one, up to the names of the vertices *)
Section Rename.
Variables (m m' : mesh) (s : Z -> Z) (f : Z -> Z -> Z * Z).
Hypothesis HO : oriented m.
Hypothesis HA : adjacent m.
Definition sp (e : Z * Z) : Z * Z := (s (fst e), s (snd e)).
Hypothesis Hf : forall x y, live m' x -> loc y ->
  live m (fst (f x y)) /\ loc (snd (f x y)) /\ ends m' x y = sp (ends m (fst (f x y)) (snd (f x y))).
Hypothesis Hinj : forall x y z w, live m' x -> loc y -> live m' z -> loc w -> f x y = f z w -> x = z /\ y = w.
Hypothesis Hnb0 : forall x y, live m' x -> loc y -> nb m (fst (f x y)) (snd (f x y)) = 0 -> nb m' x y = 0.
Hypothesis Hnb : forall x y a b, live m' x -> loc y -> live m a -> loc b -> nb m (fst (f x y)) (snd (f x y)) = 3 * a + b ->
  exists z w, live m' z /\ loc w /\ f z w = (a, b) /\ nb m' x y = 3 * z + w.
Hypothesis Hs : forall x y z w, live m' x -> loc y -> live m' z -> loc w ->
  let e := ends m (fst (f x y)) (snd (f x y)) in let e' := ends m (fst (f z w)) (snd (f z w)) in
  (sp e = sp e' -> e = e') /\ (sp e = sp (swp e') -> e = swp e').

Lemma rename_oriented : oriented m'.
Proof.
  intros x y z w Lx Lz Ly Lw E. destruct (Hf x y Lx Ly) as (A1 & A2 & A3). destruct (Hf z w Lz Lw) as (B1 & B2 & B3).
  rewrite A3, B3 in E. apply (Hs x y z w) in E; try assumption.
  destruct (HO _ _ _ _ A1 B1 A2 B2 E) as [E1 E2]. apply Hinj; try assumption.
  destruct (f x y), (f z w). cbn in *. congruence.
Qed.

Lemma sp_swp e : sp (swp e) = swp (sp e).
Proof. reflexivity. Qed.

Lemma rename_adjacent : adjacent m'.
Proof.
  intros x y Lx Ly. destruct (Hf x y Lx Ly) as (A1 & A2 & A3).
  destruct (HA _ _ A1 A2) as [[E H]|(a & b & La & Lb & E & F)].
  - left. split; [apply Hnb0; assumption|]. intros z w Lz Lw X. destruct (Hf z w Lz Lw) as (B1 & B2 & B3).
    rewrite A3, B3, <- sp_swp in X. apply (Hs z w x y) in X; try assumption. exact (H _ _ B1 B2 X).
  - right. destruct (Hnb x y a b Lx Ly La Lb E) as (z & w & Lz & Lw & Ef & En). exists z, w.
    split; [exact Lz|]. split; [exact Lw|]. split; [exact En|].
    destruct (Hf z w Lz Lw) as (B1 & B2 & B3). rewrite Ef in B3. cbn [fst snd] in B3. rewrite B3, A3, F. apply sp_swp.
Qed.

Lemma rename_tags (U W : Z * Z -> Z) :
  (forall x y, live m' x -> loc y -> tag m' x y = U (f x y) /\ edg m' x y = W (f x y)) ->
  (forall x y a b, live m x -> loc y -> live m a -> loc b -> nb m x y = 3 * a + b -> U (x, y) = U (a, b) /\ W (x, y) = W (a, b)) ->
  tags_agree m'.
Proof.
  intros HT HU x y Lx Ly N. destruct (Hf x y Lx Ly) as (A1 & A2 & _).
  destruct (Z.eq_dec (nb m (fst (f x y)) (snd (f x y))) 0) as [E|E]; [exfalso; apply N, Hnb0; assumption|].
  destruct (nbr_of m _ _ HO HA A1 A2 E) as (a & b & La & Lb & E1 & _).
  destruct (Hnb x y a b Lx Ly La Lb E1) as (z & w & Lz & Lw & Ef & En).
  rewrite En, dec_div, dec_mod by exact Lw.
  destruct (HT x y Lx Ly) as [-> ->]. destruct (HT z w Lz Lw) as [-> ->].
  destruct (HU _ _ a b A1 A2 La Lb E1) as [X1 X2]. rewrite Ef. destruct (f x y) as [c d]. cbn [fst snd] in *. auto.
Qed.
End Rename.

(** ** The mesh after the collapse of [p1] on [p2] *)
Definition has (m : mesh) (x p : Z) : Prop := exists y, loc y /\ vtx m x y = p.

(** [p] and [q] are the ends of an edge. *)
Definition joined (m : mesh) (p q : Z) : Prop := exists x, live m x /\ has m x p /\ has m x q.

(** The vertices joined to both [p] and [q] are the other vertices of the triangles of the edge. *)
Definition link_ok (m : mesh) (p q : Z) : Prop :=
  forall z, z <> p -> z <> q -> joined m p z -> joined m q z -> exists x, live m x /\ has m x p /\ has m x q /\ has m x z.

Section Contract.
Variables (m m' : mesh) (k i : Z).
Hypothesis HV : vertices_ok m.
Hypothesis HO : oriented m.
Hypothesis HA : adjacent m.
Hypothesis Lk : live m k.
Hypothesis Li : loc i.
Variables p p1 p2 : Z.
Hypothesis Ep : vtx m k i = p.
Hypothesis Ep1 : vtx m k (inxt2 i) = p1.
Hypothesis Ep2 : vtx m k (iprv2 i) = p2.
Hypothesis HL : link_ok m p1 p2.
(** The triangle on the other side of the edge, if any. *)
Variables (cl : bool) (l j q k2 j2 : Z).
Hypothesis Hcl : if cl then nbr m k i l j /\ vtx m l j = q /\ q <> p /\ nbr m l (inxt2 j) k2 j2 else nb m k i = 0.
Variables k1 j1 : Z.
Hypothesis HN1 : nbr m k (iprv2 i) k1 j1.
(** The new mesh. *)
Hypothesis Hlive : forall x, live m' x <-> live m x /\ x <> k /\ (cl = true -> x <> l).
Hypothesis Hvtx : forall x y, live m' x -> loc y -> vtx m' x y = if vtx m x y =? p1 then p2 else vtx m x y.
Hypothesis Hnb : forall x y, live m' x -> loc y -> nb m' x y =
  if at2 k1 j1 x y then nb m k (inxt2 i)
  else if cl && at2 k2 j2 x y then nb m l (iprv2 j)
  else if nb m x y =? 3 * k + inxt2 i then 3 * k1 + j1
  else if cl && (nb m x y =? 3 * l + iprv2 j) then 3 * k2 + j2
  else nb m x y.

Definition sg (z : Z) : Z := if z =? p1 then p2 else z.
Definition cf (x y : Z) : Z * Z :=
  if at2 k1 j1 x y then (k, inxt2 i) else if cl && at2 k2 j2 x y then (l, iprv2 j) else (x, y).

Lemma clE : cl = true \/ cl = false.
Proof. destruct cl; auto. Qed.

Lemma c_d : p <> p1 /\ p1 <> p2 /\ p2 <> p.
Proof. destruct (dist3 m k i HV Lk Li) as (A & B & C). rewrite Ep, Ep1, Ep2 in *. repeat split; congruence. Qed.

Lemma ek_out : ends m k (inxt2 i) = (p2, p).
Proof. rewrite ends_eq, nxt_nxt, prv_nxt by auto using loc_nxt. congruence. Qed.
Lemma ek_i : ends m k i = (p1, p2).
Proof. rewrite ends_eq by exact Li. congruence. Qed.
Lemma ek_2 : ends m k (iprv2 i) = (p, p1).
Proof. rewrite ends_eq, nxt_prv, prv_prv by auto using loc_prv. congruence. Qed.
Lemma e1 : ends m k1 j1 = (p1, p).
Proof. destruct HN1 as (_ & _ & _ & _ & ->). rewrite ek_2. reflexivity. Qed.

Lemma cl_facts : cl = true -> live m l /\ loc j /\ live m k2 /\ loc j2 /\ l <> k /\
  ends m l j = (p2, p1) /\ ends m l (inxt2 j) = (p1, q) /\ ends m l (iprv2 j) = (q, p2) /\ ends m k2 j2 = (q, p1) /\ q <> p1 /\ q <> p2.
Proof.
  intros E. rewrite E in Hcl. destruct Hcl as (HN & Eq & Nq & HN2).
  pose proof HN as (Ll & Lj & _ & _ & E1). pose proof HN2 as (L2 & Lj2 & _ & _ & E2).
  destruct (nbr_verts _ _ _ _ _ Li HN) as [V1 V2]. rewrite Ep1 in V2. rewrite Ep2 in V1.
  assert (X1 : ends m l (inxt2 j) = (p1, q)) by (rewrite ends_eq, nxt_nxt, prv_nxt by auto using loc_nxt; congruence).
  assert (X2 : ends m l (iprv2 j) = (q, p2)) by (rewrite ends_eq, nxt_prv, prv_prv by auto using loc_prv; congruence).
  destruct (dist3 m l j HV Ll Lj) as (D1 & D2 & D3). rewrite Eq, V1, V2 in *.
  rewrite ek_i in E1. rewrite X1 in E2. pose proof (nbr_neq _ _ _ _ _ HV Lk Li HN).
  repeat (split; [assumption|]). split; congruence.
Qed.

Lemma has_end x y a b : live m x -> loc y -> ends m x y = (a, b) -> has m x a /\ has m x b.
Proof.
  intros Lx Ly E. rewrite ends_eq in E by exact Ly. inversion E. split; [exists (inxt2 y)|exists (iprv2 y)]; auto using loc_nxt, loc_prv.
Qed.

(** Two vertices of a triangle are the ends of an edge of it, in one direction or the other. *)
Lemma two_of x a b : live m x -> a <> b -> has m x a -> has m x b -> exists y, loc y /\ (ends m x y = (a, b) \/ ends m x y = (b, a)).
Proof.
  intros Lx N (ya & La & Ea) (yb & Lb & Eb).
  destruct (loc_cases ya yb La Lb) as [->|[->| ->]]; [congruence| |].
  - exists (iprv2 ya). split; [auto using loc_prv|]. left. rewrite ends_eq, nxt_prv, prv_prv by auto using loc_prv. congruence.
  - exists (inxt2 ya). split; [auto using loc_nxt|]. right. rewrite ends_eq, nxt_nxt, prv_nxt by auto using loc_nxt. congruence.
Qed.

(** The triangles with both vertices. *)
Lemma both x : live m x -> has m x p1 -> has m x p2 -> x = k \/ (cl = true /\ x = l).
Proof.
  intros Lx H1 H2. destruct c_d as (_ & N & _). destruct (two_of x p1 p2 Lx N H1 H2) as (y & Ly & [E|E]).
  - left. rewrite <- ek_i in E. apply (HO _ _ _ _ Lx Lk Ly Li E).
  - right. destruct clE as [C|C].
    + split; [exact C|]. destruct (cl_facts C) as (Ll & Lj & _ & _ & _ & El & _). rewrite <- El in E. apply (HO _ _ _ _ Lx Ll Ly Lj E).
    + exfalso. destruct (HA k i Lk Li) as [[_ H]|(a & b & La & Lb & E2 & _)].
      * apply (H x y Lx Ly). rewrite E, ek_i. reflexivity.
      * rewrite C in Hcl. rewrite Hcl in E2. pose proof (loc_le _ Lb). unfold live in La. lia.
Qed.

Lemma cf_cases x y : live m' x -> loc y ->
  (x = k1 /\ y = j1 /\ cf x y = (k, inxt2 i)) \/
  (cl = true /\ x = k2 /\ y = j2 /\ cf x y = (l, iprv2 j) /\ ~ (x = k1 /\ y = j1)) \/
  (~ (x = k1 /\ y = j1) /\ (cl = true -> ~ (x = k2 /\ y = j2)) /\ cf x y = (x, y)).
Proof.
  intros Lx Ly. unfold cf. destruct (at2_dec k1 j1 x y) as [(A & B & ->)|(A & ->)]; [left; auto|right].
  destruct clE as [C|C]; rewrite C; cbn [andb]; [|right; split; [exact A|split; [discriminate|reflexivity]]].
  destruct (at2_dec k2 j2 x y) as [(A' & B & ->)|(A' & ->)]; [left; auto|right; auto].
Qed.

Lemma live_old x : live m' x -> live m x /\ x <> k /\ (cl = true -> x <> l).
Proof. apply Hlive. Qed.

Lemma ends_sg x y : live m' x -> loc y -> ends m' x y = sp sg (ends m x y).
Proof. intros Lx Ly. rewrite !ends_eq, !Hvtx by auto using loc_nxt, loc_prv. reflexivity. Qed.

Lemma sg_1 : sg p1 = p2.
Proof. unfold sg. rewrite Z.eqb_refl. reflexivity. Qed.
Lemma sg_o z : z <> p1 -> sg z = z.
Proof. intros H. unfold sg. destruct (Z.eqb_spec z p1); [contradiction|reflexivity]. Qed.

Lemma c_Hf x y : live m' x -> loc y ->
  live m (fst (cf x y)) /\ loc (snd (cf x y)) /\ ends m' x y = sp sg (ends m (fst (cf x y)) (snd (cf x y))).
Proof.
  intros Lx Ly. destruct c_d as (d1 & d2 & d3). pose proof (live_old x Lx) as (Lx' & _).
  rewrite (ends_sg x y Lx Ly).
  destruct (cf_cases x y Lx Ly) as [(-> & -> & ->)|[(C & -> & -> & -> & _)|(_ & _ & ->)]]; cbn [fst snd].
  - split; [exact Lk|]. split; [auto using loc_nxt|]. rewrite e1, ek_out. unfold sp. cbn. rewrite sg_1, !sg_o by congruence. reflexivity.
  - destruct (cl_facts C) as (Ll & Lj & _ & _ & _ & _ & _ & X1 & X2 & n1 & n2). split; [exact Ll|]. split; [auto using loc_prv|].
    rewrite X1, X2. unfold sp. cbn. rewrite sg_1, !sg_o by congruence. reflexivity.
  - auto.
Qed.

Lemma c_Hinj x y z w : live m' x -> loc y -> live m' z -> loc w -> cf x y = cf z w -> x = z /\ y = w.
Proof.
  intros Lx Ly Lz Lw E.
  pose proof (live_old x Lx) as (_ & X1 & X2). pose proof (live_old z Lz) as (_ & Z1 & Z2).
  destruct (cf_cases x y Lx Ly) as [(A1 & A2 & A3)|[(C & A1 & A2 & A3 & _)|(_ & _ & A3)]];
  destruct (cf_cases z w Lz Lw) as [(B1 & B2 & B3)|[(C' & B1 & B2 & B3 & _)|(_ & _ & B3)]]; rewrite A3, B3 in E;
    pose proof (f_equal fst E) as I1; cbn [fst] in I1; try (split; congruence); exfalso.
  - destruct (cl_facts C') as (_ & _ & _ & _ & N & _). congruence.
  - destruct (cl_facts C) as (_ & _ & _ & _ & N & _). congruence.
  - apply (Z2 C). congruence.
  - apply (X2 C'). congruence.
Qed.

(** The half-edges that come from an edge of [p1]. *)
Lemma c_image x y a b : live m' x -> loc y -> ends m (fst (cf x y)) (snd (cf x y)) = (a, b) ->
  (a = p1 -> b <> p /\ b <> p2 /\ (cl = true -> b <> q)) /\ (b = p1 -> a <> p /\ a <> p2 /\ (cl = true -> a <> q)).
Proof.
  intros Lx Ly E. destruct c_d as (d1 & d2 & d3). pose proof (live_old x Lx) as (Lx' & X1 & X2).
  destruct (cf_cases x y Lx Ly) as [(A1 & A2 & A3)|[(C & A1 & A2 & A3 & _)|(B1 & B2 & A3)]]; rewrite A3 in E; cbn [fst snd] in E.
  - rewrite ek_out in E. inversion E; subst a b. split; intros ->; congruence.
  - destruct (cl_facts C) as (Ll & Lj & _ & _ & _ & _ & _ & Y1 & Y2 & n1 & n2). rewrite Y1 in E. inversion E; subst a b. split; intros ->; congruence.
  - assert (NB : ~ (has m x p1 /\ has m x p2)).
    { intros [H1 H2]. destruct (both x Lx' H1 H2) as [->|[C ->]]; [congruence|]. exact (X2 C eq_refl). }
    destruct (has_end x y a b Lx' Ly E) as [Ha Hb]. pose proof HN1 as (L1 & Lj1 & _).
    split; intros ->; (split; [|split]).
    + intros ->. apply B1. rewrite <- e1 in E. apply (HO _ _ _ _ Lx' L1 Ly Lj1 E).
    + intros ->. apply NB. auto.
    + intros C ->. destruct (cl_facts C) as (Ll & Lj & _ & _ & _ & _ & Y1 & _). rewrite <- Y1 in E.
      destruct (HO _ _ _ _ Lx' Ll Ly (loc_nxt _ Lj) E) as [-> _]. exact (X2 C eq_refl).
    + intros ->. rewrite <- ek_2 in E. destruct (HO _ _ _ _ Lx' Lk Ly (loc_prv _ Li) E) as [-> _]. congruence.
    + intros ->. apply NB. auto.
    + intros C ->. destruct (cl_facts C) as (Ll & Lj & L2 & Lj2 & _ & _ & _ & _ & Y1 & _). rewrite <- Y1 in E.
      destruct (HO _ _ _ _ Lx' L2 Ly Lj2 E) as [-> ->]. apply B2; auto.
Qed.

(** A vertex joined to [p1] and [p2] is the third vertex of a triangle of the edge. *)
Lemma c_third z : z <> p1 -> z <> p2 -> joined m p1 z -> joined m p2 z -> z = p \/ (cl = true /\ z = q).
Proof.
  intros N1 N2 J1 J2. destruct (HL z N1 N2 J1 J2) as (x & Lx & H1 & H2 & (y & Ly & Ez)).
  destruct (both x Lx H1 H2) as [->|[C ->]].
  - destruct (loc_cases i y Li Ly) as [->|[->| ->]]; [left|..]; congruence.
  - right. split; [exact C|]. destruct (cl_facts C) as (Ll & Lj & _ & _ & _ & El & _).
    rewrite ends_eq in El by exact Lj. inversion El as [[V1 V2]].
    rewrite C in Hcl. destruct Hcl as (_ & Eq & _).
    destruct (loc_cases j y Lj Ly) as [->|[->| ->]]; congruence.
Qed.

Lemma c_key x y z w a b c d : live m' x -> loc y -> live m' z -> loc w ->
  ends m (fst (cf x y)) (snd (cf x y)) = (a, b) ->
  (ends m (fst (cf z w)) (snd (cf z w)) = (c, d) \/ ends m (fst (cf z w)) (snd (cf z w)) = (d, c)) ->
  sg a = sg c -> sg b = sg d -> a = c /\ b = d.
Proof.
  intros Lx Ly Lz Lw E1 E2 S1 S2.
  destruct (c_Hf x y Lx Ly) as (Lf & Lg & _). destruct (c_Hf z w Lz Lw) as (Lf' & Lg' & _).
  set (t := fst (cf x y)) in *. set (u := snd (cf x y)) in *. set (t' := fst (cf z w)) in *. set (u' := snd (cf z w)) in *.
  assert (I1 : (a = p1 -> b <> p /\ b <> p2 /\ (cl = true -> b <> q)) /\ (b = p1 -> a <> p /\ a <> p2 /\ (cl = true -> a <> q)))
    by (apply (c_image x y); assumption).
  assert (I2 : (c = p1 -> d <> p /\ d <> p2 /\ (cl = true -> d <> q)) /\ (d = p1 -> c <> p /\ c <> p2 /\ (cl = true -> c <> q))).
  { destruct E2 as [E2|E2]; apply (c_image z w) in E2; try assumption. destruct E2. auto. }
  assert (Ha : has m t a /\ has m t b) by (apply (has_end t u); assumption).
  assert (Hc : has m t' c /\ has m t' d) by (destruct E2 as [E2|E2]; apply has_end in E2; try assumption; destruct E2; auto).
  assert (Nab : a <> b).
  { rewrite ends_eq in E1 by exact Lg. inversion E1. destruct (dist3 m t u HV Lf Lg) as (_ & D & _). exact D. }
  assert (Ncd : c <> d).
  { destruct (dist3 m t' u' HV Lf' Lg') as (_ & D & _). rewrite ends_eq in E2 by exact Lg'. destruct E2 as [E2|E2]; inversion E2; congruence. }
  destruct Ha as [Ha Hb], Hc as [Hc Hd]. destruct I1 as [I1 I1'], I2 as [I2 I2']. destruct c_d as (d1 & d2 & d3).
  clear E1 E2. unfold sg in S1, S2.
  assert (T : forall z0, z0 <> p1 -> z0 <> p2 -> joined m p1 z0 -> joined m p2 z0 -> z0 = p \/ (cl = true /\ z0 = q)) by exact c_third.
  destruct (Z.eqb_spec a p1) as [->|A1], (Z.eqb_spec c p1) as [->|C1]; destruct (Z.eqb_spec b p1) as [->|B1], (Z.eqb_spec d p1) as [->|D1];
    try (split; congruence); try congruence; exfalso.
  all: try (destruct (I1 eq_refl) as (U1 & U2 & U3)); try (destruct (I2 eq_refl) as (W1 & W2 & W3));
       try (destruct (I1' eq_refl) as (U1' & U2' & U3')); try (destruct (I2' eq_refl) as (W1' & W2' & W3')); try congruence.
  - assert (X : d = p \/ cl = true /\ d = q).
    { apply T; [congruence|congruence|exists t; subst b; auto|exists t'; subst c; auto]. }
    destruct X as [X|[C X]]; [congruence|apply (U3 C); congruence].
  - assert (X : d = p \/ cl = true /\ d = q).
    { apply T; [congruence|congruence|exists t'; auto|exists t; subst a b; auto]. }
    destruct X as [X|[C X]]; [congruence|apply (W3 C); congruence].
  - assert (X : c = p \/ cl = true /\ c = q).
    { apply T; [congruence|congruence|exists t; subst a; auto|exists t'; subst d; auto]. }
    destruct X as [X|[C X]]; [congruence|apply (U3' C); congruence].
  - assert (X : c = p \/ cl = true /\ c = q).
    { apply T; [congruence|congruence|exists t'; auto|exists t; subst a b; auto]. }
    destruct X as [X|[C X]]; [congruence|apply (W3' C); congruence].
Qed.

Lemma c_Hs x y z w : live m' x -> loc y -> live m' z -> loc w ->
  let e := ends m (fst (cf x y)) (snd (cf x y)) in let e' := ends m (fst (cf z w)) (snd (cf z w)) in
  (sp sg e = sp sg e' -> e = e') /\ (sp sg e = sp sg (swp e') -> e = swp e').
Proof.
  intros Lx Ly Lz Lw e e'. destruct e as [a b] eqn:E1. destruct e' as [c d] eqn:E2. unfold e in E1. unfold e' in E2. clear e e'.
  unfold sp. cbn [fst snd swp]. split; intros S; inversion S as [[S1 S2]].
  - destruct (c_key x y z w a b c d) as [-> ->]; auto.
  - destruct (c_key x y z w a b d c) as [-> ->]; auto.
Qed.

Lemma k_ends y a b : loc y -> ends m k y = (a, b) -> (a, b) = (p1, p2) \/ (a, b) = (p2, p) \/ (a, b) = (p, p1).
Proof. intros Ly E. destruct (loc_cases i y Li Ly) as [->|[->| ->]]; [rewrite ek_i in E|rewrite ek_out in E|rewrite ek_2 in E]; rewrite <- E; auto. Qed.
Lemma l_ends y a b : cl = true -> loc y -> ends m l y = (a, b) -> (a, b) = (p2, p1) \/ (a, b) = (p1, q) \/ (a, b) = (q, p2).
Proof.
  intros C Ly E. destruct (cl_facts C) as (_ & Lj & _ & _ & _ & E1 & E2 & E3 & _).
  destruct (loc_cases j y Lj Ly) as [->|[->| ->]]; [rewrite E1 in E|rewrite E2 in E|rewrite E3 in E]; rewrite <- E; auto.
Qed.

Lemma qp : cl = true -> q <> p.
Proof. intros C. rewrite C in Hcl. apply Hcl. Qed.

Lemma new_live x y a b : live m x -> loc y -> ends m x y = (a, b) ->
  (a, b) <> (p1, p2) -> (a, b) <> (p2, p) -> (a, b) <> (p, p1) ->
  (cl = true -> (a, b) <> (p2, p1) /\ (a, b) <> (p1, q) /\ (a, b) <> (q, p2)) -> live m' x.
Proof.
  intros Lx Ly E N1 N2 N3 N4. apply Hlive. split; [exact Lx|]. split.
  - intros ->. destruct (k_ends y a b Ly E) as [X|[X|X]]; congruence.
  - intros C ->. destruct (N4 C) as (M1 & M2 & M3). destruct (l_ends y a b C Ly E) as [X|[X|X]]; congruence.
Qed.

Lemma k1_live : live m' k1.
Proof.
  pose proof HN1 as (L1 & Lj1 & _). destruct c_d as (d1 & d2 & d3).
  apply (new_live k1 j1 p1 p L1 Lj1 e1); try congruence. intros C. pose proof (qp C). destruct (cl_facts C) as (_ & _ & _ & _ & _ & _ & _ & _ & _ & n1 & n2).
  repeat split; congruence.
Qed.
Lemma k2_live : cl = true -> live m' k2.
Proof.
  intros C. pose proof (qp C). destruct (cl_facts C) as (_ & _ & L2 & Lj2 & _ & _ & _ & _ & E2 & n1 & n2). destruct c_d as (d1 & d2 & d3).
  apply (new_live k2 j2 q p1 L2 Lj2 E2); try congruence. intros _. repeat split; congruence.
Qed.

Lemma cf_id x y a b : live m x -> loc y -> ends m x y = (a, b) -> (a, b) <> (p1, p) -> (cl = true -> (a, b) <> (q, p1)) -> cf x y = (x, y).
Proof.
  intros Lx Ly E N1 N2. unfold cf. rewrite at2_dec_false; [|intros [-> ->]; rewrite e1 in E; congruence].
  destruct clE as [C|C]; rewrite C; [|reflexivity]. destruct (cl_facts C) as (_ & _ & _ & _ & _ & _ & _ & _ & E2 & _).
  rewrite at2_dec_false; [reflexivity|]. intros [-> ->]. rewrite E2 in E. apply (N2 C). congruence.
Qed.
Lemma cf_1 : cf k1 j1 = (k, inxt2 i).
Proof. unfold cf. rewrite at2_same. reflexivity. Qed.
Lemma cf_2 : cl = true -> cf k2 j2 = (l, iprv2 j).
Proof.
  intros C. unfold cf. destruct (cl_facts C) as (_ & _ & _ & _ & _ & _ & _ & _ & E2 & n1 & _). destruct c_d as (d1 & d2 & d3).
  rewrite at2_dec_false, C, at2_same; [reflexivity|]. intros [-> ->]. rewrite e1 in E2. congruence.
Qed.

Lemma c_Hnb0 x y : live m' x -> loc y -> nb m (fst (cf x y)) (snd (cf x y)) = 0 -> nb m' x y = 0.
Proof.
  intros Lx Ly. rewrite Hnb by assumption. unfold cf. pose proof Lk as [Bk _]. pose proof (loc_nxt _ Li) as Li1.
  destruct (at2 k1 j1 x y); [auto|]. destruct clE as [C|C]; rewrite C; cbn [andb].
  - destruct (cl_facts C) as ([Bl _] & Lj & _). pose proof (loc_prv _ Lj) as Lj1. destruct (at2 k2 j2 x y); [auto|]. cbn [fst snd]. intros ->.
    rewrite !(proj2 (Z.eqb_neq _ _)); [reflexivity|..]; apply not_eq_sym, enc_pos1; assumption || (clear - Bl Bk; lia).
  - cbn [fst snd]. intros ->. rewrite !(proj2 (Z.eqb_neq _ _)); [reflexivity|]. apply not_eq_sym, enc_pos1; assumption || (clear - Bk; lia).
Qed.

Lemma nbr_full x y a b : live m x -> loc y -> live m a -> loc b -> nb m x y = 3 * a + b -> nbr m x y a b.
Proof.
  intros Lx Ly La Lb E. destruct (nbr_of m x y HO HA Lx Ly) as (a' & b' & H); [rewrite E; apply (enc_pos m); assumption|].
  pose proof H as (_ & Lb' & E' & _). rewrite E in E'. apply enc_dec in E'; try assumption. destruct E' as [-> ->]. exact H.
Qed.

Lemma c_Hnb x y a b : live m' x -> loc y -> live m a -> loc b -> nb m (fst (cf x y)) (snd (cf x y)) = 3 * a + b ->
  exists z w, live m' z /\ loc w /\ cf z w = (a, b) /\ nb m' x y = 3 * z + w.
Proof.
  intros Lx Ly La Lb E. destruct c_d as (d1 & d2 & d3). pose proof (live_old x Lx) as (Lx' & X1 & X2).
  pose proof (loc_nxt _ Li) as Li1. pose proof (loc_prv _ Li) as Li2. pose proof HN1 as (L1 & Lj1 & F1 & F2 & _).
  rewrite Hnb by assumption.
  destruct (cf_cases x y Lx Ly) as [(-> & -> & A3)|[(C & -> & -> & A3 & A4)|(B1 & B2 & A3)]]; rewrite A3 in E; cbn [fst snd] in E.
  - rewrite at2_same. exists a, b. rewrite E. destruct (nbr_full _ _ _ _ Lk Li1 La Lb E) as (_ & _ & _ & _ & Ee).
    rewrite ek_out in Ee. unfold swp in Ee. cbn in Ee. split; [|split; [exact Lb|split; [|reflexivity]]].
    + apply (new_live a b p p2); try assumption; try congruence. intros C. pose proof (qp C). destruct (cl_facts C) as (_ & _ & _ & _ & _ & _ & _ & _ & _ & n1 & n2).
      repeat split; congruence.
    + apply (cf_id a b p p2); try assumption; try congruence.
  - rewrite at2_dec_false, C, at2_same by exact A4. cbn [andb]. exists a, b. pose proof (qp C).
    destruct (cl_facts C) as (Ll & Lj & L2 & Lj2 & Nlk & El & _ & Eo & _ & n1 & n2).
    rewrite E. destruct (nbr_full _ _ _ _ Ll (loc_prv _ Lj) La Lb E) as (_ & _ & _ & _ & Ee). rewrite Eo in Ee. unfold swp in Ee. cbn in Ee.
    split; [|split; [exact Lb|split; [|reflexivity]]].
    + apply (new_live a b p2 q); try assumption; try congruence. intros _. repeat split; congruence.
    + apply (cf_id a b p2 q); try assumption; try congruence.
  - rewrite at2_dec_false by exact B1. rewrite E.
    assert (S : nb m a b = 3 * x + y) by (apply (nb_sym m); assumption).
    assert (At2 : cl && at2 k2 j2 x y = false).
    { destruct clE as [C|C]; rewrite C; cbn [andb]; [|reflexivity]. apply at2_dec_false, B2, C. }
    rewrite At2.
    destruct (Z.eqb_spec (3 * a + b) (3 * k + inxt2 i)) as [E1|E1].
    { apply enc_dec in E1; try assumption. destruct E1 as [-> ->]. exists k1, j1. split; [exact k1_live|]. split; [exact Lj1|]. split; [exact cf_1|reflexivity]. }
    destruct (cl && (3 * a + b =? 3 * l + iprv2 j)) eqn:E2.
    { apply andb_true_iff in E2. destruct E2 as [C E2]. apply Z.eqb_eq in E2. destruct (cl_facts C) as (Ll & Lj & L2 & Lj2 & _).
      apply enc_dec in E2; auto using loc_prv. destruct E2 as [-> ->]. exists k2, j2. split; [exact (k2_live C)|]. split; [exact Lj2|]. split; [exact (cf_2 C)|reflexivity]. }
    exists a, b. split; [|split; [exact Lb|split; [|reflexivity]]].
    + apply Hlive. split; [exact La|]. split.
      * intros ->. destruct (loc_cases i b Li Lb) as [->|[->| ->]]; [|apply E1; reflexivity|].
        -- destruct clE as [C|C].
           ++ pose proof Hcl as H. rewrite C in H. destruct H as ((_ & Lj & H & _) & _). rewrite S in H. apply enc_dec in H; try assumption.
              apply (X2 C). apply H.
           ++ pose proof Hcl as H. rewrite C in H. rewrite S in H. revert H. apply (enc_pos m); assumption.
        -- rewrite S in F1. apply enc_dec in F1; try assumption. apply B1. exact F1.
      * intros C ->. destruct (cl_facts C) as (Ll & Lj & L2 & Lj2 & _). pose proof Hcl as H. rewrite C in H. destruct H as (H & _ & _ & H2).
        destruct (loc_cases j b Lj Lb) as [->|[->| ->]].
        -- destruct H as (_ & _ & _ & H & _). rewrite S in H. apply enc_dec in H; try assumption. apply X1. apply H.
        -- destruct H2 as (_ & _ & H2 & _). rewrite S in H2. apply enc_dec in H2; try assumption. apply (B2 C). exact H2.
        -- rewrite C in E2. cbn [andb] in E2. rewrite Z.eqb_refl in E2. discriminate.
    + unfold cf. rewrite at2_dec_false.
      * destruct clE as [C|C]; rewrite C; cbn [andb]; [|reflexivity]. rewrite at2_dec_false; [reflexivity|]. intros [-> ->].
        destruct (cl_facts C) as (Ll & Lj & L2 & Lj2 & _). pose proof Hcl as H. rewrite C in H. destruct H as (_ & _ & _ & (_ & _ & _ & H & _)).
        rewrite S in H. apply enc_dec in H; auto using loc_nxt. apply (X2 C). apply H.
      * intros [-> ->]. rewrite S in F2. apply enc_dec in F2; try assumption. apply X1. apply F2.
Qed.

Lemma contract_oriented : oriented m'.
Proof. apply (rename_oriented m m' sg cf HO c_Hf c_Hinj c_Hs). Qed.

Lemma contract_adjacent : adjacent m'.
Proof. apply (rename_adjacent m m' sg cf HA c_Hf c_Hnb0 c_Hnb c_Hs). Qed.

Lemma contract_unused : unused m' p1.
Proof.
  intros x y Lx Ly. rewrite Hvtx by assumption. destruct c_d as (_ & d & _).
  destruct (Z.eqb_spec (vtx m x y) p1); congruence.
Qed.

(** Only the deleted triangles have both vertices, so the vertices of the others stay different. *)
Lemma contract_vertices : (forall z, z <> p1 -> alive m z -> alive m' z) -> vertices_ok m'.
Proof.
  intros Hal x Lx. destruct c_d as (_ & d & _). pose proof (live_old x Lx) as (Lx' & X1 & X2).
  assert (NB : ~ (has m x p1 /\ has m x p2)).
  { intros [H1 H2]. destruct (both x Lx' H1 H2) as [->|[C ->]]; [congruence|]. exact (X2 C eq_refl). }
  assert (A2 : alive m p2) by (rewrite <- Ep2; apply alive_at; auto using loc_prv).
  assert (AL : forall y, loc y -> alive m' (vtx m' x y)).
  { intros y Ly. rewrite Hvtx by assumption. destruct (Z.eqb_spec (vtx m x y) p1); [apply Hal; congruence || assumption|].
    apply Hal; [assumption|]. apply alive_at; assumption. }
  assert (DI : forall y w, loc y -> loc w -> vtx m x y <> vtx m x w -> vtx m' x y <> vtx m' x w).
  { intros y w Ly Lw N. rewrite !Hvtx by assumption.
    destruct (Z.eqb_spec (vtx m x y) p1) as [E1|E1], (Z.eqb_spec (vtx m x w) p1) as [E2|E2]; try congruence; intros E3; apply NB; split.
    - exists y. auto.
    - exists w. auto.
    - exists w. auto.
    - exists y. auto. }
  destruct (HV x Lx') as (_ & _ & _ & D1 & D2 & D3). pose proof l0. pose proof l1. pose proof l2.
  split; [auto|]. split; [auto|]. split; [auto|]. split; [auto|]. split; auto.
Qed.

Variables T1 T2 G1 G2 : Z.
Lemma contract_tags : tags_agree m ->
  (forall x y, live m' x -> loc y -> tag m' x y =
    if at2 k1 j1 x y || (nb m x y =? 3 * k + inxt2 i) then T1
    else if cl && (at2 k2 j2 x y || (nb m x y =? 3 * l + iprv2 j)) then T2 else tag m x y) ->
  (forall x y, live m' x -> loc y -> edg m' x y =
    if at2 k1 j1 x y || (nb m x y =? 3 * k + inxt2 i) then G1
    else if cl && (at2 k2 j2 x y || (nb m x y =? 3 * l + iprv2 j)) then G2 else edg m x y) ->
  tags_agree m'.
Proof.
  intros TA HT HG. pose proof (loc_nxt _ Li) as Li1.
  pose (sel := fun (A1 A2 : Z) (A : Z -> Z -> Z) (h : Z * Z) =>
    if at2 k (inxt2 i) (fst h) (snd h) || (nb m (fst h) (snd h) =? 3 * k + inxt2 i) then A1
    else if cl && (at2 l (iprv2 j) (fst h) (snd h) || (nb m (fst h) (snd h) =? 3 * l + iprv2 j)) then A2 else A (fst h) (snd h)).
  assert (SY : forall (a b x y z w : Z), loc b -> live m x -> loc y -> live m z -> loc w -> nb m x y = 3 * z + w ->
     at2 a b x y || (nb m x y =? 3 * a + b) = at2 a b z w || (nb m z w =? 3 * a + b)).
  { intros a b x y z w Lb Lx Ly Lz Lw E. rewrite E, (nb_sym m x y z w) by assumption.
    assert (Q : forall x y, loc y -> (3 * x + y =? 3 * a + b) = at2 a b x y).
    { clear - Lb. intros x y Ly. destruct (at2_dec a b x y) as [(-> & -> & ->)|(N & ->)]; [apply Z.eqb_refl|].
      apply Z.eqb_neq. intros E. apply N. apply enc_dec in E; assumption. }
    rewrite !Q by assumption. apply orb_comm. }
  assert (SEL : forall A1 A2 A x y z w, live m x -> loc y -> live m z -> loc w -> nb m x y = 3 * z + w -> A x y = A z w ->
     sel A1 A2 A (x, y) = sel A1 A2 A (z, w)).
  { intros A1 A2 A x y z w Lx Ly Lz Lw E EA. unfold sel. cbn [fst snd]. rewrite (SY k (inxt2 i) x y z w), EA by assumption.
    destruct (at2 k (inxt2 i) z w || _); [reflexivity|].
    destruct clE as [C|C]; rewrite C; cbn [andb]; [|reflexivity].
    destruct (cl_facts C) as (_ & Lj & _). rewrite (SY l (iprv2 j) x y z w) by auto using loc_prv. reflexivity. }
  assert (CF : forall A1 A2 A x y, live m' x -> loc y ->
     (if at2 k1 j1 x y || (nb m x y =? 3 * k + inxt2 i) then A1
      else if cl && (at2 k2 j2 x y || (nb m x y =? 3 * l + iprv2 j)) then A2 else A x y) = sel A1 A2 A (cf x y)).
  { intros A1 A2 A x y Lx Ly. pose proof (live_old x Lx) as (Lx' & X1 & X2).
    destruct (cf_cases x y Lx Ly) as [(-> & -> & ->)|[(C & -> & -> & -> & N)|(B1 & B2 & ->)]]; unfold sel; cbn [fst snd].
    - rewrite !at2_same. reflexivity.
    - destruct (cl_facts C) as (Ll & Lj & L2 & Lj2 & Nlk & El & _ & Eo & E2 & n1 & n2). destruct c_d as (d1 & d2 & d3). pose proof (qp C) as nq.
      assert (F2 : nb m k2 j2 = 3 * l + inxt2 j) by (pose proof Hcl as H; rewrite C in H; apply H).
      rewrite at2_dec_false by exact N. rewrite F2. cbn [orb].
      assert (3 * l + inxt2 j =? 3 * k + inxt2 i = false) as ->.
      { apply Z.eqb_neq. intros X. apply enc_dec in X; auto using loc_nxt. destruct X. contradiction. }
      rewrite (at2_k k) by congruence. cbn [orb].
      destruct (Z.eqb_spec (nb m l (iprv2 j)) (3 * k + inxt2 i)) as [X|X].
      { exfalso. destruct (nbr_full _ _ _ _ Ll (loc_prv _ Lj) Lk Li1 X) as (_ & _ & _ & _ & Y). rewrite ek_out, Eo in Y. unfold swp in Y. cbn in Y. congruence. }
      rewrite !at2_same, C. reflexivity.
    - rewrite (at2_dec_false k1) by exact B1. rewrite (at2_k k) by exact X1. cbn [orb].
      destruct (nb m x y =? 3 * k + inxt2 i); [reflexivity|].
      destruct clE as [C|C]; rewrite C; cbn [andb]; [|reflexivity].
      rewrite (at2_dec_false k2) by exact (B2 C). rewrite (at2_k l) by exact (X2 C). reflexivity. }
  apply (rename_tags m m' sg cf HO HA c_Hf c_Hnb0 c_Hnb (sel T1 T2 (tag m)) (sel G1 G2 (edg m))).
  - intros x y Lx Ly. rewrite HT, HG by assumption. split; apply CF; assumption.
  - intros x y a b Lx Ly La Lb E. destruct (agree_at m x y a b TA Lx Ly La Lb E) as [U1 U2]. split; apply SEL; auto.
Qed.
End Contract.
