(** The ball of a vertex, as it is collected by [MMG5_boulet]. *)
From Coq Require Import ZArith List Lia Bool.
From Verif Require Import CBase Op2Model Op2Spec Op2Proofs Op2Split Op2Split2 Op2Col.
Import ListNotations.
Open Scope Z_scope.

(** Two triangles with a common edge at [p]. *)
Definition turns (m : mesh) (p x y : Z) : Prop := exists u, u <> p /\ has m x p /\ has m x u /\ has m y p /\ has m y u.

(** One goes from a triangle at [p] to any other by triangles with common edges at [p]. *)
Inductive around (m : mesh) (p x : Z) : Z -> Prop :=
| around_refl : around m p x x
| around_step : forall y z, around m p x y -> live m z -> turns m p y z -> around m p x z.

Definition fan (m : mesh) (p : Z) : Prop :=
  forall x y, live m x -> live m y -> has m x p -> has m y p -> around m p x y.

Section Walk.
Variables (m : mesh) (start : Z).
Hypothesis HV : vertices_ok m.
Hypothesis HO : oriented m.
Hypothesis HA : adjacent m.
Hypothesis HT : tables_ok m.
Hypothesis Ls : live m start.

Inductive path : Z -> Z -> list Z -> bool -> Prop :=
| path_open : forall k i, nb m k (inxt2 i) = 0 -> path k i [3 * k + i] false
| path_closed : forall k i w, loc w -> nb m k (inxt2 i) = 3 * start + w -> path k i [3 * k + i] true
| path_next : forall k i k' w l c, live m k' -> loc w -> nb m k (inxt2 i) = 3 * k' + w -> k' <> start ->
    path k' (inxt2 w) l c -> path k i ((3 * k + i) :: l) c.

Lemma fwd_ok : forall room k i, live m k -> loc i ->
  boulet_fwd m start room k i = Ret None \/
  exists l c r, boulet_fwd m start room k i = Ret (Some (l, c, r)) /\ path k i l c.
Proof.
  induction room as [|room IH]; intros k i Lk Li; [left; reflexivity|]. cbn [boulet_fwd].
  rewrite get_adj_ok by (auto using live_intab, loc_nxt). cbn [bind].
  destruct (Z.eq_dec (nb m k (inxt2 i)) 0) as [E|N].
  - rewrite E. right. exists [3 * k + i], false, room. split; [reflexivity|]. constructor. exact E.
  - destruct (nbr_of m k (inxt2 i) HO HA Lk (loc_nxt _ Li) N) as (k' & w & Lk' & Lw & E & _).
    rewrite E, dec_div, dec_mod by exact Lw. assert (k' =? 0 = false) as -> by (apply Z.eqb_neq; destruct Lk'; lia).
    destruct (Z.eqb_spec k' start) as [->|Ns].
    + right. exists [3 * k + i], true, room. split; [reflexivity|]. econstructor; eassumption.
    + destruct (IH k' (inxt2 w) Lk' (loc_nxt _ Lw)) as [->|(l & c & r & -> & P)]; cbn [bind]; [left; reflexivity|].
      right. exists ((3 * k + i) :: l), c, r. split; [reflexivity|]. econstructor; eassumption.
Qed.

Lemma bwd_nil room k i : live m k -> loc i -> nb m k (iprv2 i) = 0 -> boulet_bwd m room k i = Ret (Some []).
Proof.
  intros Lk Li E. destruct room; cbn [boulet_bwd]; rewrite get_adj_ok by (auto using live_intab, loc_prv); cbn [bind]; rewrite E; reflexivity.
Qed.

(** ** What the list contains *)
Lemma path_head k i l c : path k i l c -> exists r, l = (3 * k + i) :: r.
Proof. destruct 1; eauto. Qed.

Variable p : Z.

Lemma step_vtx k i k' w : live m k -> loc i -> vtx m k i = p -> live m k' -> loc w -> nb m k (inxt2 i) = 3 * k' + w -> vtx m k' (inxt2 w) = p.
Proof.
  intros Lk Li E Lk' Lw En. destruct (nbr_of m k (inxt2 i) HO HA Lk (loc_nxt _ Li)) as (a & b & H).
  { rewrite En. apply (enc_pos m); assumption. }
  pose proof (nbr_verts m k (inxt2 i) a b (loc_nxt _ Li) H) as [V _]. destruct H as (_ & Lb & Eb & _). rewrite En in Eb. apply enc_dec in Eb; try assumption.
  destruct Eb as [-> ->]. rewrite V, prv_nxt by exact Li. exact E.
Qed.

Lemma path_entries k i l c : path k i l c -> live m k -> loc i -> vtx m k i = p ->
  forall e, In e l -> exists x y, e = 3 * x + y /\ live m x /\ loc y /\ vtx m x y = p.
Proof.
  induction 1 as [k i E|k i w Lw E|k i k' w l c Lk' Lw E Ns P IH]; intros Lk Li V e [<-|Hin]; try (exists k, i; auto; fail); try contradiction.
  apply IH; auto using loc_nxt. apply (step_vtx k i); assumption.
Qed.

Lemma path_tail k i l c : path k i l c -> forall r, l = (3 * k + i) :: r -> forall x y, loc y -> In (3 * x + y) r -> x <> start.
Proof.
  induction 1 as [k i E|k i w Lw E|k i k' w l c Lk' Lw E Ns P IH]; intros r Er x y Ly Hin; inversion Er; subst; try contradiction.
  destruct (path_head _ _ _ _ P) as (r' & ->). destruct Hin as [E1|Hin].
  - apply enc_dec in E1; auto using loc_nxt. destruct E1 as [<- _]. exact Ns.
  - exact (IH r' eq_refl x y Ly Hin).
Qed.

Lemma path_fwd k i l c : path k i l c -> live m k -> loc i -> forall x y, loc y -> In (3 * x + y) l ->
  nb m x (inxt2 y) = 0 \/ (exists w, loc w /\ nb m x (inxt2 y) = 3 * start + w) \/
  (exists x' w, loc w /\ nb m x (inxt2 y) = 3 * x' + w /\ In (3 * x' + inxt2 w) l).
Proof.
  induction 1 as [k i E|k i w Lw E|k i k' w l c Lk' Lw E Ns P IH]; intros Lk Li x y Ly [Hin|Hin]; try contradiction.
  - apply enc_dec in Hin; try assumption. destruct Hin as [<- <-]. auto.
  - apply enc_dec in Hin; try assumption. destruct Hin as [<- <-]. right. left. eauto.
  - apply enc_dec in Hin; try assumption. destruct Hin as [<- <-]. right. right. exists k', w. split; [exact Lw|]. split; [exact E|].
    right. destruct (path_head _ _ _ _ P) as (r' & ->). left. reflexivity.
  - destruct (IH Lk' (loc_nxt _ Lw) x y Ly Hin) as [X|[X|(x' & w' & A & B & C)]]; [auto|auto|].
    right. right. exists x', w'. split; [exact A|]. split; [exact B|]. right. exact C.
Qed.

Lemma path_bwd k i l c : path k i l c -> live m k -> loc i -> forall r, l = (3 * k + i) :: r -> forall x y, loc y -> In (3 * x + y) r ->
  exists x0 y0, loc y0 /\ In (3 * x0 + y0) l /\ nb m x0 (inxt2 y0) = 3 * x + iprv2 y.
Proof.
  induction 1 as [k i E|k i w Lw E|k i k' w l c Lk' Lw E Ns P IH]; intros Lk Li r Er x y Ly Hin; inversion Er; subst; try contradiction.
  destruct (path_head _ _ _ _ P) as (r' & ->). destruct Hin as [E1|Hin].
  - apply enc_dec in E1; auto using loc_nxt. destruct E1 as [<- <-]. exists k, i. split; [exact Li|]. split; [left; reflexivity|].
    rewrite prv_nxt by exact Lw. exact E.
  - destruct (IH Lk' (loc_nxt _ Lw) r' eq_refl x y Ly Hin) as (x0 & y0 & A & B & C). exists x0, y0. split; [exact A|]. split; [right; exact B|exact C].
Qed.

(** The last triangle of the ball. *)
Lemma path_last k i l c : path k i l c -> loc i -> exists l' x y, l = l' ++ [3 * x + y] /\ loc y /\
  if c then exists w, loc w /\ nb m x (inxt2 y) = 3 * start + w else nb m x (inxt2 y) = 0.
Proof.
  induction 1 as [k i E|k i w Lw E|k i k' w l c Lk' Lw E Ns P IH]; intros Li.
  - exists [], k, i. auto.
  - exists [], k, i. split; [reflexivity|]. eauto.
  - destruct (IH (loc_nxt _ Lw)) as (l' & x & y & -> & A). exists ((3 * k + i) :: l'), x, y. auto.
Qed.

(** Two successive entries. *)
Lemma path_succ k i l c : path k i l c -> loc i -> forall l1 a b l2, l = l1 ++ a :: b :: l2 ->
  exists x y x' y', a = 3 * x + y /\ loc y /\ b = 3 * x' + y' /\ loc y' /\ nb m x (inxt2 y) = 3 * x' + iprv2 y' /\ live m x' /\ x' <> start.
Proof.
  induction 1 as [k i E|k i w Lw E|k i k' w l c Lk' Lw E Ns P IH]; intros Li l1 a b l2 El.
  - destruct l1 as [|? [|]]; discriminate.
  - destruct l1 as [|? [|]]; discriminate.
  - destruct l1 as [|h l1].
    + cbn in El. inversion El; subst. destruct (path_head _ _ _ _ P) as (r & Er). inversion Er; subst.
      exists k, i, k', (inxt2 w). rewrite prv_nxt by exact Lw. repeat (split; [auto using loc_nxt|]). exact Ns.
    + cbn in El. inversion El; subst. eapply IH; auto using loc_nxt.
Qed.
End Walk.

(** ** The ball of the first end of edge [i] of triangle [k] *)
Section Ball.
Variables (m : mesh) (k i : Z).
Hypothesis HT : tables_ok m.
Hypothesis HV : vertices_ok m.
Hypothesis HO : oriented m.
Hypothesis HA : adjacent m.
Hypothesis Lk : live m k.
Hypothesis Li : loc i.
Variables p1 p2 : Z.
Hypothesis Ep1 : vtx m k (inxt2 i) = p1.
Hypothesis Ep2 : vtx m k (iprv2 i) = p2.
Hypothesis HF : fan m p1.
Hypothesis HB : nb m k i <> 0 -> forall x y, live m x -> loc y -> nb m x y = 0 -> fst (ends m x y) <> p1 /\ snd (ends m x y) <> p1.

Lemma p1_at x y z : live m x -> loc y -> loc z -> vtx m x y = p1 -> vtx m x z = p1 -> y = z.
Proof.
  intros Lx Ly Lz E1 E2. destruct (dist3 m x y HV Lx Ly) as (D1 & D2 & D3).
  destruct (loc_cases y z Ly Lz) as [->|[->| ->]]; congruence.
Qed.

(** The edge of a ball triangle that ends (starts) at [p1]. *)
Lemma ends_nxt x y : loc y -> vtx m x y = p1 -> ends m x (inxt2 y) = (vtx m x (iprv2 y), p1).
Proof. intros Ly E. rewrite ends_eq, nxt_nxt, prv_nxt by auto using loc_nxt. congruence. Qed.
Lemma ends_prv x y : loc y -> vtx m x y = p1 -> ends m x (iprv2 y) = (p1, vtx m x (inxt2 y)).
Proof. intros Ly E. rewrite ends_eq, nxt_prv, prv_prv by auto using loc_prv. congruence. Qed.

(** The neighbour of a ball triangle through the edge that ends at [p1] is entered by the edge before its own [p1]. *)
Lemma enter x y a b : live m x -> loc y -> vtx m x y = p1 -> live m a -> loc b -> nb m x (inxt2 y) = 3 * a + b -> vtx m a (inxt2 b) = p1.
Proof. intros Lx Ly E La Lb En. exact (step_vtx m HO HA p1 x y a b Lx Ly E La Lb En). Qed.

Lemma nbr_full' x y a b : live m x -> loc y -> live m a -> loc b -> nb m x y = 3 * a + b -> nbr m x y a b.
Proof.
  intros Lx Ly La Lb E. destruct (nbr_of m x y HO HA Lx Ly) as (a' & b' & H); [rewrite E; apply (enc_pos m); assumption|].
  pose proof H as (_ & Lb' & E' & _). rewrite E in E'. apply enc_dec in E'; try assumption. destruct E' as [-> ->]. exact H.
Qed.

(** Coming back to [k]: only through edge [i]. *)
Lemma back x y w : live m x -> loc y -> vtx m x y = p1 -> loc w -> nb m x (inxt2 y) = 3 * k + w -> w = i /\ nb m k i = 3 * x + inxt2 y.
Proof.
  intros Lx Ly E Lw En. pose proof (enter x y k w Lx Ly E Lk Lw En) as X.
  assert (inxt2 i = inxt2 w) as Y by (apply (p1_at k); auto using loc_nxt).
  assert (w = i) as -> by (rewrite <- (prv_nxt w), <- Y by exact Lw; apply prv_nxt, Li).
  split; [reflexivity|]. apply (nb_sym m); auto using loc_nxt.
Qed.

Variables (l : list Z) (c : bool).
Hypothesis HP : path m k k (inxt2 i) l c.

Lemma ball_entries e : In e l -> exists x y, e = 3 * x + y /\ live m x /\ loc y /\ vtx m x y = p1.
Proof. apply (path_entries m k HO HA p1 _ _ _ _ HP Lk (loc_nxt _ Li) Ep1). Qed.

Lemma ball_entry x y : loc y -> In (3 * x + y) l -> live m x /\ vtx m x y = p1.
Proof.
  intros Ly H. destruct (ball_entries _ H) as (x' & y' & E & Lx & Ly' & Vx). apply enc_dec in E; try assumption. destruct E as [-> ->]. auto.
Qed.

Lemma ball_last : exists l' x y, l = l' ++ [3 * x + y] /\ live m x /\ loc y /\ vtx m x y = p1 /\
  if c then nb m k i = 3 * x + inxt2 y else nb m x (inxt2 y) = 0.
Proof.
  destruct (path_last m k k (inxt2 i) l c HP (loc_nxt _ Li)) as (l' & x & y & El & Ly & X).
  destruct (ball_entry x y Ly) as [Lx Vx]; [rewrite El; apply in_or_app; right; left; reflexivity|].
  exists l', x, y. split; [exact El|]. split; [exact Lx|]. split; [exact Ly|]. split; [exact Vx|].
  destruct c; [|exact X]. destruct X as (w & Lw & X). apply (back x y w Lx Ly Vx Lw X).
Qed.

Lemma ball_kind : c = negb (nb m k i =? 0).
Proof.
  destruct ball_last as (l' & x & y & El & Lx & Ly & Vx & X).
  assert (B : c = true \/ c = false) by (destruct c; auto). destruct B as [B|B]; rewrite B in *.
  - rewrite X. assert (3 * x + inxt2 y =? 0 = false) as ->; [|reflexivity].
    apply Z.eqb_neq, (enc_pos m); auto using loc_nxt.
  - destruct (Z.eqb_spec (nb m k i) 0) as [|N]; [reflexivity|exfalso].
    destruct (HB N x (inxt2 y) Lx (loc_nxt _ Ly) X) as [_ Y]. rewrite (ends_nxt x y Ly Vx) in Y. apply Y. reflexivity.
Qed.

(** Every triangle of the vertex is in the list. *)
Lemma ball_covers x : live m x -> has m x p1 -> exists y, loc y /\ In (3 * x + y) l.
Proof.
  intros Lx Hx. assert (Hk : has m k p1) by (exists (inxt2 i); auto using loc_nxt).
  destruct (path_head m k _ _ _ _ HP) as (r & Er).
  pose proof (HF k x Lk Lx Hk Hx) as Ar. induction Ar as [|a z Ar IH Lz (u & Nu & (ya & Lya & Eya) & Hu & Hz & Hzu)].
  - exists (inxt2 i). split; [auto using loc_nxt|]. rewrite Er. left. reflexivity.
  - assert (La : live m a) by (destruct Ar; assumption).
    destruct IH as (y & Ly & Iy); [exact La|exists ya; auto|].
    destruct (ball_entry a y Ly Iy) as [_ Va].
    assert (y = ya) by (apply (p1_at a); assumption). subst ya.
    destruct Hu as (yu & Lyu & Eu). destruct (two_of m z p1 u Lz (not_eq_sym Nu) Hz Hzu) as (w & Lw & Ew).
    destruct (loc_cases y yu Ly Lyu) as [->|[->| ->]]; [congruence| |].
    + (* before [a] *)
      pose proof (ends_prv a y Ly Va) as Ea. rewrite Eu in Ea.
      destruct Ew as [Ew|Ew].
      { rewrite <- Ea in Ew. destruct (HO _ _ _ _ Lz La Lw (loc_prv _ Ly) Ew) as [-> _]. exists y. auto. }
      destruct (HA a (iprv2 y) La (loc_prv _ Ly)) as [[_ N]|(b & v & Lb & Lv & En & Eb)].
      { exfalso. apply (N z w Lz Lw). rewrite Ea. exact Ew. }
      rewrite Ea in Eb. unfold swp in Eb. cbn in Eb. rewrite <- Ew in Eb. destruct (HO _ _ _ _ Lb Lz Lv Lw Eb) as [-> ->].
      pose proof Iy as Iy'. rewrite Er in Iy'. destruct Iy' as [Ey|Iy'].
      * apply enc_dec in Ey; auto using loc_nxt. destruct Ey as [<- <-]. rewrite prv_nxt in En by exact Li.
        destruct ball_last as (l' & x' & y' & El & Lx' & Ly' & Vx' & X). pose proof ball_kind as K.
        assert (c = true) as C by (rewrite K, En; assert (3 * z + w =? 0 = false) as -> by (apply Z.eqb_neq, (enc_pos m); assumption); reflexivity).
        rewrite C in X. rewrite En in X. apply enc_dec in X; auto using loc_nxt. destruct X as [-> _].
        exists y'. split; [exact Ly'|]. rewrite El. apply in_or_app. right. left. reflexivity.
      * destruct (path_bwd m k k _ _ _ HP Lk (loc_nxt _ Li) r Er a y Ly Iy') as (x0 & y0 & Ly0 & I0 & E0).
        destruct (ball_entry x0 y0 Ly0 I0) as [L0 _].
        apply (nb_sym m) in E0; auto using loc_nxt, loc_prv. rewrite En in E0. apply enc_dec in E0; auto using loc_nxt. destruct E0 as [-> _].
        exists y0. auto.
    + (* after [a] *)
      pose proof (ends_nxt a y Ly Va) as Ea. rewrite Eu in Ea.
      destruct Ew as [Ew|Ew].
      2:{ rewrite <- Ea in Ew. destruct (HO _ _ _ _ Lz La Lw (loc_nxt _ Ly) Ew) as [-> _]. exists y. auto. }
      destruct (HA a (inxt2 y) La (loc_nxt _ Ly)) as [[_ N]|(b & v & Lb & Lv & En & Eb)].
      { exfalso. apply (N z w Lz Lw). rewrite Ea. exact Ew. }
      rewrite Ea in Eb. unfold swp in Eb. cbn in Eb. rewrite <- Ew in Eb. destruct (HO _ _ _ _ Lb Lz Lv Lw Eb) as [-> ->].
      destruct (path_fwd m k _ _ _ _ HP Lk (loc_nxt _ Li) a y Ly Iy) as [Z0|[(w' & Lw' & E')|(x' & w' & Lw' & E' & I')]].
      * exfalso. rewrite Z0 in En. revert En. apply not_eq_sym, (enc_pos m); assumption.
      * rewrite En in E'. apply enc_dec in E'; try assumption. destruct E' as [-> _]. exists (inxt2 i). split; [auto using loc_nxt|]. rewrite Er. left. reflexivity.
      * rewrite En in E'. apply enc_dec in E'; try assumption. destruct E' as [-> ->]. exists (inxt2 w'). auto using loc_nxt.
Qed.
End Ball.
