(** The collapse of an edge of a triangular mesh (C35). *)
From Coq Require Import ZArith List Lia Bool.
From Verif Require Import CBase Chain Op2Model Op2Spec Op2Proofs Op2Split Op2Split2 Op2Col Op2Ball Op2Del Op2Run Op2Check Op2Chk PropsOp2.
Import ListNotations.
Open Scope Z_scope.

(** ** When the list of the ball is too short *)
Section Long.
Variables (m : mesh) (start : Z).
Hypothesis HV : vertices_ok m.
Hypothesis HO : oriented m.
Hypothesis HA : adjacent m.
Hypothesis HT : tables_ok m.

Inductive walk : Z -> Z -> list Z -> Prop :=
| walk_one : forall k i, walk k i [3 * k + i]
| walk_next : forall k i k' w l, live m k' -> loc w -> nb m k (inxt2 i) = 3 * k' + w -> k' <> start ->
    walk k' (inxt2 w) l -> walk k i ((3 * k + i) :: l).

Lemma fwd_none : forall room k i, live m k -> loc i -> boulet_fwd m start room k i = Ret None -> exists l, length l = S room /\ walk k i l.
Proof.
  induction room as [|room IH]; intros k i Lk Li H; [exists [3 * k + i]; split; [reflexivity|constructor]|]. cbn [boulet_fwd] in H.
  rewrite get_adj_ok in H by (auto using live_intab, loc_nxt). cbn [bind] in H.
  destruct (Z.eq_dec (nb m k (inxt2 i)) 0) as [E|N]; [rewrite E in H; discriminate|].
  destruct (nbr_of m k (inxt2 i) HO HA Lk (loc_nxt _ Li) N) as (k' & w & Lk' & Lw & E & _).
  rewrite E, dec_div, dec_mod in H by exact Lw. assert (k' =? 0 = false) as X by (apply Z.eqb_neq; destruct Lk'; lia). rewrite X in H.
  destruct (Z.eqb_spec k' start) as [->|Ns]; [discriminate|].
  destruct (boulet_fwd m start room k' (inxt2 w)) as [[[[? ?] ?]|]|] eqn:R; cbn [bind] in H; try discriminate.
  destruct (IH k' (inxt2 w) Lk' (loc_nxt _ Lw) R) as (l & El & W). exists ((3 * k + i) :: l). split; [cbn; lia|]. econstructor; eassumption.
Qed.

Lemma walk_head k i l : walk k i l -> nth_error l 0 = Some (3 * k + i).
Proof. destruct 1; reflexivity. Qed.

Lemma walk_entries p k i l : walk k i l -> live m k -> loc i -> vtx m k i = p ->
  forall e, In e l -> exists x y, e = 3 * x + y /\ live m x /\ loc y /\ vtx m x y = p.
Proof.
  induction 1 as [k i|k i k' w l Lk' Lw E Ns P IH]; intros Lk Li V e [<-|Hin]; try (exists k, i; auto; fail); try contradiction.
  apply IH; auto using loc_nxt. apply (step_vtx m HO HA p k i); assumption.
Qed.

Lemma walk_succ k i l : walk k i l -> loc i -> forall t e', nth_error l (S t) = Some e' ->
  exists x y x' y', nth_error l t = Some (3 * x + y) /\ loc y /\ e' = 3 * x' + y' /\ loc y' /\ live m x' /\ nb m x (inxt2 y) = 3 * x' + iprv2 y' /\ x' <> start.
Proof.
  induction 1 as [k i|k i k' w l Lk' Lw E Ns P IH]; intros Li t e' H; [destruct t; discriminate|]. cbn in H.
  destruct t as [|t].
  - rewrite (walk_head _ _ _ P) in H. injection H as <-. exists k, i, k', (inxt2 w). rewrite prv_nxt by exact Lw.
    repeat (split; [auto using loc_nxt|]). exact Ns.
  - destruct (IH (loc_nxt _ Lw) t e' H) as (x & y & x' & y' & X). exists x, y, x', y'. exact X.
Qed.

Lemma walk_nodup i p l : walk start i l -> live m start -> loc i -> vtx m start i = p -> NoDup l.
Proof.
  intros W Ls Li Ev. pose proof (walk_entries p start i l W Ls Li Ev) as HE. apply NoDup_nth_error.
  assert (K : forall a b, (a < b)%nat -> (b < length l)%nat -> nth_error l a = nth_error l b -> False).
  { induction a as [|a IH]; intros b Hab Hb E; (destruct b as [|b]; [lia|]).
    - rewrite (walk_head _ _ _ W) in E. symmetry in E. destruct (walk_succ _ _ _ W Li b _ E) as (x & y & x' & y' & _ & _ & E' & Ly' & _ & _ & N).
      apply enc_dec in E'; auto. destruct E'. congruence.
    - destruct (nth_error l (S a)) as [e|] eqn:Ea; [|symmetry in E; apply nth_error_None in E; lia]. symmetry in E.
      destruct (walk_succ _ _ _ W Li a _ Ea) as (x & y & x' & y' & Xa & Ly & E1 & Ly' & Lx' & N1 & _).
      destruct (walk_succ _ _ _ W Li b _ E) as (z & v & z' & v' & Xb & Lv & E2 & Lv' & Lz' & N2 & _).
      rewrite E1 in E2. apply enc_dec in E2; auto. destruct E2 as [<- <-].
      assert (Lx : live m x). { apply nth_error_In in Xa. destruct (HE _ Xa) as (x0 & y0 & X0 & L0 & Ly0 & _). apply enc_dec in X0; auto. destruct X0 as [-> _]. exact L0. }
      assert (Lz : live m z). { apply nth_error_In in Xb. destruct (HE _ Xb) as (x0 & y0 & X0 & L0 & Ly0 & _). apply enc_dec in X0; auto. destruct X0 as [-> _]. exact L0. }
      apply nb_sym in N1; auto using loc_nxt, loc_prv. apply nb_sym in N2; auto using loc_nxt, loc_prv. rewrite N1 in N2.
      apply enc_dec in N2; auto using loc_nxt. destruct N2 as [Ez Ev2]. assert (y = v) as <-.
      { rewrite <- (prv_nxt y), <- (prv_nxt v) by assumption. congruence. }
      apply (IH b); [lia|lia|]. rewrite Xa, Xb, Ez. reflexivity. }
  intros a b Ha E. destruct (Nat.lt_trichotomy a b) as [H|[H|H]]; [exfalso|exact H|exfalso].
  - apply (K a b H); [|exact E]. apply nth_error_Some. rewrite <- E. apply nth_error_Some. exact Ha.
  - exact (K b a H Ha (eq_sym E)).
Qed.

Lemma walk_tris i p l : walk start i l -> live m start -> loc i -> vtx m start i = p ->
  exists L, NoDup L /\ length L = length l /\ forall x, In x L -> live m x /\ has m x p.
Proof.
  intros W Ls Li Ev. pose proof (walk_entries p start i l W Ls Li Ev) as HE. pose proof (walk_nodup i p l W Ls Li Ev) as ND.
  exists (map (fun e => e / 3) l). split; [|split; [apply map_length|]].
  - clear W. induction l as [|e l IH]; [constructor|]. inversion ND; subst. constructor; [|apply IH; auto; intros e' H'; apply HE; right; exact H'].
    intros X. apply in_map_iff in X. destruct X as (e' & E & I). destruct (HE e (or_introl eq_refl)) as (x & y & -> & Lx & Ly & Vx).
    destruct (HE e' (or_intror I)) as (x' & y' & -> & Lx' & Ly' & Vx'). rewrite !dec_div in E by assumption. subst x'.
    pose proof (p1_at m HV _ x y y' Lx Ly Ly' Vx Vx') as <-. contradiction.
  - intros x X. apply in_map_iff in X. destruct X as (e & <- & I). destruct (HE e I) as (x & y & -> & Lx & Ly & Vx).
    rewrite dec_div by exact Ly. split; [exact Lx|exists y; auto].
Qed.
End Long.

(** ** The collapse *)
Definition ball_of (m : mesh) (k i : Z) (bl : list Z) : Prop := path m k k (inxt2 i) bl (negb (nb m k i =? 0)).

Lemma boulet_ok m k i p1 : conforming m -> live m k -> loc i -> vtx m k (inxt2 i) = p1 ->
  (nb m k i <> 0 -> forall x y, live m x -> loc y -> nb m x y = 0 -> fst (ends m x y) <> p1 /\ snd (ends m x y) <> p1) ->
  (boulet m k (inxt2 i) = Ret None /\ exists L, NoDup L /\ length L = 1024%nat /\ forall x, In x L -> live m x /\ has m x p1) \/
  (exists bl, boulet m k (inxt2 i) = Ret (Some bl) /\ ball_of m k i bl).
Proof.
  intros (HT & HV & HO & HA) Lk Li E1 HB. pose proof (loc_nxt _ Li) as Lni. unfold boulet.
  destruct (fwd_ok m k HO HA HT (LMAX - 1) k (inxt2 i) Lk Lni) as [E|(l & c & r & E & P)].
  - left. rewrite E. split; [reflexivity|]. destruct (fwd_none m k HO HA HT _ _ _ Lk Lni E) as (l & El & W).
    destruct (walk_tris m k HV HO HA _ p1 l W Lk Lni E1) as (L & N & Le & H). exists L. split; [exact N|]. split; [rewrite Le, El; reflexivity|exact H].
  - right. rewrite E. cbn [bind]. pose proof (ball_kind m k i HV HO HA Lk Li p1 E1 HB l c P) as Ec. unfold ball_of.
    destruct c; [exists l; split; [reflexivity|rewrite <- Ec; exact P]|]. rewrite (bwd_nil m HT).
    + cbn [bind]. exists l. rewrite app_nil_r. split; [reflexivity|]. rewrite <- Ec. exact P.
    + exact Lk.
    + exact Lni.
    + rewrite prv_nxt by exact Li. symmetry in Ec. apply negb_false_iff, Z.eqb_eq in Ec. exact Ec.
Qed.

Lemma has_edge m x a b : vertices_ok m -> live m x -> a <> b -> has m x a -> has m x b ->
  exists y, loc y /\ (ends m x y = (a, b) \/ ends m x y = (b, a)).
Proof.
  intros V Lx N (u & Lu & Eu) (v & Lv & Ev). destruct (loc_cases u v Lu Lv) as [X|[X|X]].
  - exfalso. congruence.
  - exists (iprv2 u). split; [apply loc_prv, Lu|]. left. rewrite Op2Proofs.ends_prv by exact Lu. congruence.
  - exists (inxt2 u). split; [apply loc_nxt, Lu|]. right. rewrite Op2Proofs.ends_nxt by exact Lu. congruence.
Qed.

(** The collapse of the first end [p1] of the edge [i] of triangle [k] on its second end [p2].  The
    triangles around [p1] are one fan, closed when the edge is interior (no boundary
    edge at [p1]), and the vertices joined to both ends are those of the triangles of the edge.
    The code refuses the collapse, and changes nothing, only when [p1] has more than 1023 triangles
    or when all of them are on the edge; otherwise the triangles of the edge are deleted, [p1] is
    deleted and is replaced by [p2] in the others, and the mesh is conforming. *)
Theorem collapse_conforming m k i p1 p2 :
  conforming m -> live m k -> loc i -> vtx m k ((i + 1) mod 3) = p1 -> vtx m k ((i + 2) mod 3) = p2 ->
  fan m p1 -> link_ok m p1 p2 ->
  (nb m k i <> 0 -> forall x y, live m x -> loc y -> nb m x y = 0 -> fst (ends m x y) <> p1 /\ snd (ends m x y) <> p1) ->
  exists r m', collapse m k i = Ret (r, m') /\
  ((r = 0 /\ m' = m /\
    ((exists L, NoDup L /\ length L = 1024%nat /\ forall x, In x L -> live m x /\ has m x p1) \/
     (forall x, live m x -> has m x p1 -> has m x p2))) \/
   (r = 1 /\ conforming m' /\ symmetric m' /\
    (tags_agree m -> (nb m k i = 0 -> tag m k ((i + 2) mod 3) = 0) -> tags_agree m') /\
    unused m' p1 /\ ~ alive m' p1 /\
    (forall x, live m' x <-> live m x /\ ~ (has m x p1 /\ has m x p2)) /\
    (forall x y, live m' x -> loc y -> vtx m' x y = if vtx m x y =? p1 then p2 else vtx m x y))).
Proof.
  intros C Lk Li E1 E2 HF HL HB. pose proof C as (HT & HV & HO & HA).
  rewrite <- nxt_mod in E1 by exact Li. rewrite <- prv_mod in E2 by exact Li. rewrite <- prv_mod by exact Li.
  pose proof (loc_nxt _ Li) as Lni. pose proof (loc_prv _ Li) as Lpi. pose proof (live_intab m k HT Lk) as Ik.
  destruct (dist3 m k i HV Lk Li) as (D1 & D2 & D3). rewrite E1, E2 in D2. rewrite E1 in D1. rewrite E2 in D3.
  set (p := vtx m k i) in *. assert (Ep : vtx m k i = p) by reflexivity.
  assert (Hk2 : has m k p2) by (exists (iprv2 i); auto).
  assert (Hk1 : has m k p1) by (exists (inxt2 i); auto).
  unfold collapse. rewrite (get_adj_ok m k i Ik Li).
  destruct (boulet_ok m k i p1 C Lk Li E1 HB) as [(-> & L)|(bl & -> & P)]; cbn [bind].
  { exists 0, m. split; [reflexivity|]. left. split; [reflexivity|]. split; [reflexivity|]. left. exact L. }
  unfold ball_of in P. set (c := negb (nb m k i =? 0)) in *.
  pose proof (ball_entries m k i HO HA Lk Li p1 E1 bl c P) as HE.
  pose proof (ball_covers m k i HV HO HA Lk Li p1 E1 HF HB bl c P) as HC.
  destruct (path_head _ _ _ _ _ _ P) as (r & Er).
  (* triangles with both ends *)
  assert (BOTH : forall x, live m x -> has m x p1 -> has m x p2 -> x = k \/ (nb m k i <> 0 /\ x = nb m k i / 3)).
  { intros x Lx H1 H2. destruct (has_edge m x p1 p2 HV Lx D2 H1 H2) as (y & Ly & [E|E]).
    - left. apply (HO x y k i Lx Lk Ly Li). rewrite E, ends_eq, E1, E2 by exact Li. reflexivity.
    - right. destruct (HA k i Lk Li) as [[_ N]|(l & j & Ll & Lj & En & Es)].
      + exfalso. apply (N x y Lx Ly). rewrite E, ends_eq, E1, E2 by exact Li. reflexivity.
      + split; [rewrite En; apply (enc_pos m); assumption|]. rewrite En, dec_div by exact Lj. apply (HO x y l j Lx Ll Ly Lj). rewrite E, Es, ends_eq, E1, E2 by exact Li. reflexivity. }
  destruct r as [|e1 r].
  { (* one triangle *)
    exists 0, m. rewrite Er. split; [reflexivity|]. left. split; [reflexivity|]. split; [reflexivity|]. right. intros x Lx Hx.
    destruct (HC x Lx Hx) as (y & Ly & I). rewrite Er in I. destruct I as [I|[]]. apply enc_dec in I; auto. destruct I as [<- _]. exact Hk2. }
  assert (P0 : lget bl 0 = Ret (3 * k + inxt2 i)) by (rewrite Er; reflexivity).
  destruct (path_succ m k k (inxt2 i) bl c P Lni [] (3 * k + inxt2 i) e1 r Er) as (x0 & y0 & k1 & y1 & Ex & Ly0 & Ee1 & Ly1 & En1 & L1 & N1).
  apply enc_dec in Ex; auto. destruct Ex as [<- <-]. rewrite nxt_nxt in En1 by exact Li.
  pose proof (nbr_full' m HO HA k (iprv2 i) k1 (iprv2 y1) Lk Lpi L1 (loc_prv _ Ly1) En1) as HN1.
  assert (P1 : lget bl 1 = Ret (3 * k1 + y1)) by (rewrite Er, Ee1; reflexivity).
  assert (Ev1 : vtx m k1 y1 = p1).
  { destruct (HE (3 * k1 + y1)) as (x & y & Ex & _ & Ly & Ev); [rewrite Er, Ee1; right; left; reflexivity|]. apply enc_dec in Ex; auto. destruct Ex as [-> ->]. exact Ev. }
  (* the conclusion from the contraction *)
  assert (FIN : forall (cl : bool) (l j q k2 j2 : Z) (cond : Prop) (m' : mesh), (if cl then nbr m k i l j /\ vtx m l j = q /\ q <> p /\ nbr m l (inxt2 j) k2 j2 else nb m k i = 0) ->
     ((nb m k i = 0 -> tag m k (iprv2 i) = 0) -> cond) -> contracted m k p1 p2 cl l cond m' ->
     conforming m' /\ symmetric m' /\ (tags_agree m -> (nb m k i = 0 -> tag m k (iprv2 i) = 0) -> tags_agree m') /\ unused m' p1 /\ ~ alive m' p1 /\
     (forall x, live m' x <-> live m x /\ ~ (has m x p1 /\ has m x p2)) /\
     (forall x y, live m' x -> loc y -> vtx m' x y = if vtx m x y =? p1 then p2 else vtx m x y)).
  { intros cl l j q k2 j2 cond m' Hcl Hc (C' & Tg & U & NA & Lv & Vx). split; [exact C'|]. split; [apply conf_symmetric, C'|].
    split; [intros TA H; exact (Tg TA (Hc H))|]. split; [exact U|]. split; [exact NA|]. split; [|exact Vx].
    intros x. rewrite Lv. unfold kept. split.
    - intros (Lx & Nk & Nl). split; [exact Lx|]. intros [H1 H2]. destruct (BOTH x Lx H1 H2) as [X|[Nz X]]; [contradiction|].
      destruct cl; [|contradiction]. destruct Hcl as ((Ll & Lj & Ea & _) & _). rewrite Ea, dec_div in X by exact Lj. exact (Nl eq_refl X).
    - intros (Lx & NB). split; [exact Lx|]. split; [intros ->; apply NB; auto|]. intros -> ->. apply NB.
      destruct Hcl as (HN & _). pose proof (nbr_verts m k i l j Li HN) as [V1 V2]. destruct HN as (_ & Lj & _). rewrite E2 in V1. rewrite E1 in V2. split; [exists (iprv2 j)|exists (inxt2 j)]; auto using loc_prv, loc_nxt. }
  destruct (Z.eqb_spec (nb m k i) 0) as [Z0|NZ].
  - (* boundary edge *)
    assert (HN : if false then nbr m k i 0 0 /\ vtx m 0 0 = 0 /\ 0 <> p /\ nbr m 0 (inxt2 0) 0 0 else nb m k i = 0) by exact Z0.
    destruct r as [|e2 r].
    + destruct (stage2 m k i HT HV HO HA Lk Li p p1 p2 Ep E1 E2 HL false 0 0 0 0 0 HN k1 (iprv2 y1) HN1 y1 eq_refl Ly1 eq_refl Ev1) as (m' & Em & Cm).
      { intros x Lx Hx. destruct (HC x Lx Hx) as (y & Ly & I). rewrite Er in I. destruct I as [I|[I|[]]].
        - apply enc_dec in I; auto. destruct I. auto.
        - rewrite Ee1 in I. apply enc_dec in I; auto. destruct I. auto. }
      exists 1, m'. split; [rewrite Er, Ee1; exact Em|]. right. split; [reflexivity|]. apply (FIN false 0 0 0 0 0 (tag m k (iprv2 i) = 0) m' HN); [intros H; exact (H Z0)|exact Cm].
    + destruct (run_open m k i HT HV HO HA Lk Li p p1 p2 Ep E1 E2 HL false 0 0 0 0 0 HN k1 (iprv2 y1) HN1 bl y1 eq_refl) as (m' & Em & Cm); auto.
      { rewrite Er. cbn. lia. }
      exists 1, m'. split; [|right; split; [reflexivity|apply (FIN false 0 0 0 0 0 True m' HN); auto]].
      rewrite Er in *. cbn [length]. destruct r as [|e3 r]; cbn [length Nat.ltb Nat.leb Nat.eqb orb andb]; exact Em.
  - (* interior edge *)
    destruct (ball_last m k i HV HO HA Lk Li p1 E1 bl c P) as (l' & lx & ly & El & Ll & Ly & Evl & Enl).
    assert (c = true) as Ec by reflexivity. rewrite Ec in Enl.
    pose proof (loc_nxt _ Ly) as Lny. pose proof (loc_prv _ Ly) as Lpy.
    pose proof (nbr_full' m HO HA k i lx (inxt2 ly) Lk Li Ll Lny Enl) as HNl.
    destruct r as [|e2 r].
    { (* two triangles *)
      exists 0, m. split; [rewrite Er; reflexivity|]. left. split; [reflexivity|]. split; [reflexivity|]. right. intros x Lx Hx.
      destruct (HC x Lx Hx) as (y & Lyy & I). rewrite Er in I. destruct I as [I|[I|[]]].
      - apply enc_dec in I; auto. destruct I as [<- _]. exact Hk2.
      - rewrite Er in El. assert (l' = [3 * k + inxt2 i]) as -> by (destruct l' as [|? [|? [|]]]; inversion El; reflexivity). inversion El as [El']. rewrite El' in I.
        apply enc_dec in I; auto. destruct I as [<- _]. pose proof (nbr_verts m k i lx (inxt2 ly) Li HNl) as [V1 _]. exists (inxt2 (inxt2 ly)). rewrite V1. auto using loc_nxt. }
    assert (Hlen : (3 <= length bl)%nat) by (rewrite Er; cbn; lia).
    (* the last two *)
    assert (exists l'' e, l' = l'' ++ [e]) as (l'' & ek & El').
    { destruct l' as [|h t] using rev_ind; [rewrite El in Hlen; cbn in Hlen; lia|eauto]. }
    destruct (path_succ m k k (inxt2 i) bl c P Lni l'' ek (3 * lx + ly) []) as (k2 & y2 & x' & y' & Eek & Ly2 & Ex' & Ly' & En2 & _ & Nx').
    { rewrite El, El', <- app_assoc. reflexivity. }
    apply enc_dec in Ex'; auto. destruct Ex' as [<- <-].
    assert (L2 : live m k2).
    { destruct (HE ek) as (x & y & Ex & Lx & Lyy & _); [rewrite El, El', <- app_assoc; apply in_or_app; right; left; reflexivity|]. rewrite Eek in Ex. apply enc_dec in Ex; auto. destruct Ex as [-> _]. exact Lx. }
    pose proof (nb_sym m k2 (inxt2 y2) lx (iprv2 ly) HO HA L2 (loc_nxt _ Ly2) Ll Lpy En2) as En2'.
    assert (HN2 : nbr m lx (inxt2 (inxt2 ly)) k2 (inxt2 y2)).
    { rewrite nxt_nxt by exact Ly. apply nbr_full'; auto using loc_nxt. }
    set (q := vtx m lx (inxt2 ly)).
    assert (Nq : q <> p).
    { intros Eq. (* the last triangle would be the second one *)
      pose proof (nbr_verts m k (iprv2 i) k1 (iprv2 y1) Lpi HN1) as [V1 V2]. rewrite nxt_prv in V1 by exact Ly1. rewrite prv_prv in V2 by exact Ly1. rewrite nxt_prv in V2 by exact Li.
      assert (X : ends m lx (iprv2 ly) = ends m k1 (iprv2 y1)).
      { rewrite !Op2Proofs.ends_prv by assumption. rewrite Evl, Ev1, V2. fold q. rewrite Eq. reflexivity. }
      destruct (HO lx (iprv2 ly) k1 (iprv2 y1) Ll L1 Lpy (loc_prv _ Ly1) X) as [Ex Ey].
      assert (ly = y1) by (rewrite <- (nxt_prv ly), <- (nxt_prv y1) by assumption; congruence).
      destruct (path_succ m k k (inxt2 i) bl c P Lni [3 * k + inxt2 i] e1 e2 r Er) as (xa & ya & xb & yb & Exa & Lya & Exb & Lyb & Ena & _ & Nb).
      rewrite Ee1 in Exa. apply enc_dec in Exa; auto. destruct Exa as [<- <-].
      pose proof HNl as (_ & _ & _ & Y & _). rewrite <- Ex, <- H, Y in Ena. apply enc_dec in Ena; auto using loc_prv. destruct Ena. congruence. }
    assert (HN : if true then nbr m k i lx (inxt2 ly) /\ vtx m lx (inxt2 ly) = q /\ q <> p /\ nbr m lx (inxt2 (inxt2 ly)) k2 (inxt2 y2) else nb m k i = 0) by auto.
    assert (Pn : lget bl (Z.of_nat (length bl) - 1) = Ret (3 * lx + iprv2 (inxt2 ly))).
    { rewrite prv_nxt by exact Ly. rewrite El. unfold lget. rewrite app_length. cbn [length].
      replace (Z.of_nat (length l' + 1) - 1) with (Z.of_nat (length l')) by lia. destruct (Z.ltb_spec (Z.of_nat (length l')) 0); [lia|].
      rewrite Nat2Z.id, nth_error_app2, Nat.sub_diag by lia. reflexivity. }
    assert (Pm : lget bl (Z.of_nat (length bl) - 2) = Ret (3 * k2 + y2)).
    { rewrite <- Eek, El, El', <- app_assoc. unfold lget. rewrite app_length. cbn [length app].
      replace (Z.of_nat (length l'' + 2) - 2) with (Z.of_nat (length l'')) by lia. destruct (Z.ltb_spec (Z.of_nat (length l'')) 0); [lia|].
      rewrite Nat2Z.id, nth_error_app2, Nat.sub_diag by lia. reflexivity. }
    destruct r as [|e3 r].
    + (* three triangles *)
      assert (B3 : bl = [3 * k + inxt2 i; 3 * k1 + y1; 3 * lx + iprv2 (inxt2 ly)]).
      { rewrite Er in Pn. cbn in Pn. injection Pn as Pn. rewrite Er, Ee1, Pn. reflexivity. }
      assert (E21 : k2 = k1 /\ y2 = y1).
      { rewrite B3 in Pm. cbn [length Z.of_nat Pos.of_succ_nat Pos.succ] in Pm. change (lget [3 * k + inxt2 i; 3 * k1 + y1; 3 * lx + iprv2 (inxt2 ly)] (3 - 2)) with (Ret (3 * k1 + y1)) in Pm.
        injection Pm as Pm. apply enc_dec in Pm; auto. destruct Pm; auto. }
      destruct E21 as [E21 Ey21].
      destruct (stage3 m k i HT HV HO HA Lk Li p p1 p2 Ep E1 E2 HL true lx (inxt2 ly) q k2 (inxt2 y2) HN k1 (iprv2 y1) HN1 y1 eq_refl Ly1 E21 eq_refl) as (m' & Em & Cm).
      { rewrite Ey21. reflexivity. }
      { exact Ev1. }
      { intros x Lx Hx. destruct (HC x Lx Hx) as (y & Lyy & I). rewrite B3 in I. rewrite prv_nxt in I by exact Ly.
        destruct I as [I|[I|[I|[]]]]; apply enc_dec in I; auto; destruct I; auto. }
      exists 1, m'. split; [rewrite B3; exact Em|]. right. split; [reflexivity|]. apply (FIN true lx (inxt2 ly) q k2 (inxt2 y2) True m' HN); auto.
    + destruct (run_closed m k i HT HV HO HA Lk Li p p1 p2 Ep E1 E2 HL true lx (inxt2 ly) q k2 (inxt2 y2) HN k1 (iprv2 y1) HN1 bl y1 y2 eq_refl Hlen Ly1 eq_refl Ly2 eq_refl P0 P1 Pm Pn HE HC) as (m' & Em & Cm).
      exists 1, m'. split; [|right; split; [reflexivity|apply (FIN true lx (inxt2 ly) q k2 (inxt2 y2) True m' HN); auto]].
      rewrite Er in *. exact Em.
Qed.

(** * Concrete meshes *)
Definition hasb (m : mesh) (x p : Z) : bool := existsb (fun y => vtx m x y =? p) locs.
Lemma hasb_ok m x p : hasb m x p = true <-> has m x p.
Proof.
  unfold hasb. rewrite existsb_exists. split; intros (y & A & B); exists y; [apply locs_ok in A; apply Z.eqb_eq in B|apply locs_ok in A; rewrite Z.eqb_eq]; auto.
Qed.
Definition joinedb (m : mesh) (p q : Z) : bool := existsb (fun x => hasb m x p && hasb m x q) (lives m).
Lemma joinedb_ok m p q : joinedb m p q = true <-> joined m p q.
Proof.
  unfold joinedb. rewrite existsb_exists. split; intros (x & H).
  - destruct H as [A B]. apply lives_ok in A. rewrite andb_true_iff, !hasb_ok in B. exists x. tauto.
  - exists x. rewrite lives_ok, andb_true_iff, !hasb_ok. exact H.
Qed.
Definition link_okb (m : mesh) (p q : Z) : bool :=
  forallb (fun h => let z := vtx m (fst h) (snd h) in
    (z =? p) || (z =? q) || negb (joinedb m p z && joinedb m q z) || existsb (fun x => hasb m x p && hasb m x q && hasb m x z) (lives m)) (halves m).
Lemma link_okb_ok m p q : link_okb m p q = true -> link_ok m p q.
Proof.
  unfold link_okb. rewrite forallb_forall. intros H z Np Nq Jp Jq. pose proof Jp as (x & Lx & _ & (y & Ly & Ez)).
  specialize (H (x, y) (proj2 (halves_ok m x y) (conj Lx Ly))). cbn [fst snd] in H. rewrite Ez in H.
  rewrite (proj2 (joinedb_ok m p z) Jp), (proj2 (joinedb_ok m q z) Jq) in H. rewrite (proj2 (Z.eqb_neq z p) Np), (proj2 (Z.eqb_neq z q) Nq) in H. cbn [orb andb negb] in H.
  apply existsb_exists in H. destruct H as (w & Lw & Hw).  cbv beta in Hw. apply lives_ok in Lw. rewrite !andb_true_iff, !hasb_ok in Hw. exists w. tauto.
Qed.

Definition turnsb (m : mesh) (p x y : Z) : bool :=
  hasb m x p && hasb m y p && existsb (fun j => negb (vtx m x j =? p) && hasb m y (vtx m x j)) locs.
Lemma turnsb_ok m p x y : turnsb m p x y = true -> turns m p x y.
Proof.
  unfold turnsb. rewrite !andb_true_iff, !hasb_ok, existsb_exists. intros [[A B] (j & C & D)]. apply locs_ok in C. cbv beta in D.
  rewrite andb_true_iff, negb_true_iff, Z.eqb_neq, hasb_ok in D. exists (vtx m x j). destruct D. repeat split; auto. exists j. auto.
Qed.
Fixpoint reach (fuel : nat) (m : mesh) (p x : Z) : list Z :=
  match fuel with
  | O => [x]
  | S f => let r := reach f m p x in r ++ filter (fun z => existsb (fun y => turnsb m p y z) r) (lives m)
  end.
Lemma reach_ok fuel m p x y : In y (reach fuel m p x) -> around m p x y.
Proof.
  revert y. induction fuel as [|f IH]; intros y H; cbn in H.
  - destruct H as [<-|[]]. constructor.
  - apply in_app_or in H. destruct H as [H|H]; [auto|]. apply filter_In in H. destruct H as [A B]. apply lives_ok in A.
    apply existsb_exists in B. destruct B as (z & C & D). apply turnsb_ok in D. econstructor; eauto.
Qed.
Definition fanb (fuel : nat) (m : mesh) (p : Z) : bool :=
  let b := filter (fun x => hasb m x p) (lives m) in forallb (fun x => forallb (fun y => existsb (Z.eqb y) (reach fuel m p x)) b) b.
Lemma fanb_ok fuel m p : fanb fuel m p = true -> fan m p.
Proof.
  unfold fanb. rewrite forallb_forall. intros H x y Lx Ly Hx Hy.
  assert (B : forall z, live m z -> has m z p -> In z (filter (fun x => hasb m x p) (lives m))) by (intros z A B; apply filter_In; rewrite lives_ok, hasb_ok; auto).
  specialize (H x (B x Lx Hx)). rewrite forallb_forall in H. specialize (H y (B y Ly Hy)). apply existsb_exists in H.
  destruct H as (z & I & E). apply Z.eqb_eq in E. subst z. exact (reach_ok _ _ _ _ _ I).
Qed.
Definition insideb (m : mesh) (p : Z) : bool :=
  forallb (fun h => negb (nb m (fst h) (snd h) =? 0) || (negb (fst (ends m (fst h) (snd h)) =? p) && negb (snd (ends m (fst h) (snd h)) =? p))) (halves m).
Lemma insideb_ok m p : insideb m p = true -> forall x y, live m x -> loc y -> nb m x y = 0 -> fst (ends m x y) <> p /\ snd (ends m x y) <> p.
Proof.
  unfold insideb. rewrite forallb_forall. intros H x y Lx Ly E. specialize (H (x, y) (proj2 (halves_ok m x y) (conj Lx Ly))). cbn [fst snd] in H.
  rewrite E in H. cbn in H. rewrite andb_true_iff, !negb_true_iff, !Z.eqb_neq in H. exact H.
Qed.

(** A mesh from its triangles; the adjacency table is that of the definition. *)
Definition tri3 := (Z * Z * Z)%type.
Definition vat (t : tri3) (i : Z) : Z := let '(a, b, c) := t in if i =? 0 then a else if i =? 1 then b else c.
Definition find_nb (l : list tri3) (t : tri3) (i : Z) : Z :=
  let a := vat t ((i + 1) mod 3) in let b := vat t ((i + 2) mod 3) in
  (fix go n r := match r with
    | [] => 0
    | s :: r => match filter (fun j => (vat s ((j + 1) mod 3) =? b) && (vat s ((j + 2) mod 3) =? a)) locs with j :: _ => 3 * n + j | [] => go (n + 1) r end
    end) 1 l.
Definition build (l : list tri3) (np : Z) (etag : Z -> Z -> Z) (ptags : list Z) : mesh :=
  let n := Z.of_nat (length l) in
  let t s := mkTria (fun i => vat s i) (fun i => etag (vat s ((i + 1) mod 3)) (vat s ((i + 2) mod 3))) (fun _ => 0) 0 in
  mkMesh (aof tzero (map t l ++ [free 0; free 0]))
    (mkArr (3 * (n + 2) + 5) (aget (aof 0 (flat_map (fun s => map (find_nb l s) locs) l))))
    (mkArr (np + 1) (aget (aof 0 ptags))) (n + 1) n (n + 2) [].
Definition notag (_ _ : Z) : Z := 0.

(** The hexagon with its centre 7, and a closed ball of six triangles. *)
Definition hexa : mesh := build [(7,1,2); (7,2,3); (7,3,4); (7,4,5); (7,5,6); (7,6,1)] 7 notag [].
(** Three triangles around the boundary vertex 1. *)
Definition half : mesh := build [(1,2,3); (1,3,4); (1,4,5)] 5 notag [].
(** A triangle cut at the inner point 4. *)
Definition tri_in : mesh := build [(4,1,2); (4,2,3); (4,3,1)] 4 notag [].

Ltac col_hyps := first [apply conformingb_ok; vm_compute; reflexivity | apply liveb_ok; reflexivity | apply (fanb_ok 6); vm_compute; reflexivity
  | apply link_okb_ok; vm_compute; reflexivity | intros _; apply insideb_ok; vm_compute; reflexivity | (intros N; exfalso; apply N; reflexivity)
  | left; reflexivity | right; left; reflexivity | right; right; reflexivity].

Ltac col_case m k i p1 p2 P :=
  let m' := fresh "m'" in let R := fresh "R" in let C := fresh "C" in let X := fresh "X" in let R2 := fresh "R2" in
  destruct (run_wit (collapse m k i) 1 P) as (m' & R & X); [vm_compute; reflexivity|];
  destruct (collapse_conforming m k i p1 p2) as (r & m2 & R2 & [(-> & _)|(-> & C & _)]); try reflexivity; try col_hyps;
  [rewrite R in R2; discriminate|];
  assert (m2 = m') as -> by congruence; exists m'; split; [exact R|]; split; [exact C|].

Example collapse_closed_case : exists m', collapse hexa 1 2 = Ret (1, m') /\ conforming m' /\ is_tri m' 2 1 2 3 /\ is_tri m' 3 1 3 4 /\ ~ live m' 1 /\ ~ live m' 6.
Proof.
  col_case hexa 1 2 7 1 (fun m => is_trib m 2 0 1 2 3 && is_trib m 3 0 1 3 4 && negb (liveb m 1) && negb (liveb m 6)).
  rewrite !andb_true_iff, !negb_true_iff in X. destruct X as [[[A B] D] E]. split; [apply (is_trib_ok _ _ 0); [left; reflexivity|exact A]|].
  split; [apply (is_trib_ok _ _ 0); [left; reflexivity|exact B]|]. rewrite <- !liveb_ok. split; congruence.
Qed.

Example collapse_open_case : exists m', collapse half 1 2 = Ret (1, m') /\ conforming m' /\ is_tri m' 2 2 3 4 /\ is_tri m' 3 2 4 5.
Proof.
  col_case half 1 2 1 2 (fun m => is_trib m 2 0 2 3 4 && is_trib m 3 0 2 4 5).
  rewrite !andb_true_iff in X. destruct X as [A B]. split; apply (is_trib_ok _ _ 0); (left; reflexivity) || assumption.
Qed.

Example collapse_three_case : exists m', collapse tri_in 1 2 = Ret (1, m') /\ conforming m' /\ is_tri m' 2 1 2 3 /\ nb m' 2 0 = 0.
Proof.
  col_case tri_in 1 2 4 1 (fun m => is_trib m 2 0 1 2 3 && (nb m 2 0 =? 0)).
  rewrite !andb_true_iff, Z.eqb_eq in X. destruct X as [A B]. split; [apply (is_trib_ok _ _ 0); [left; reflexivity|exact A]|exact B].
Qed.

Example collapse_two_case : exists m', collapse hexa 1 0 = Ret (1, m') /\ conforming m' /\ is_tri m' 6 7 6 2 /\ nb m' 6 1 = 3 * 2 + 2.
Proof.
  col_case hexa 1 0 1 2 (fun m => is_trib m 6 0 7 6 2 && (nb m 6 1 =? 8)).
  rewrite !andb_true_iff, Z.eqb_eq in X. destruct X as [A B]. split; [apply (is_trib_ok _ _ 0); [left; reflexivity|exact A]|exact B].
Qed.

(** The hypothesis on the tag is needed: when the boundary vertex has two triangles and their common edge has a
    tag, [MMG2D_colver2] writes this tag on one side of the new edge only. *)
Definition hexatag : mesh := build [(7,1,2); (7,2,3); (7,3,4); (7,4,5); (7,5,6); (7,6,1)] 7 (fun a b => if (a + b =? 8) && (a * b =? 7) then MG_REF else 0) [].
Theorem colver2_tags_refuted : exists m k i m',
  conforming m /\ tags_agree m /\ live m k /\ loc i /\ nb m k i = 0 /\ collapse m k i = Ret (1, m') /\ conforming m' /\ ~ tags_agree m'.
Proof.
  destruct (run_wit (collapse hexatag 1 0) 1 (fun m => conformingb m && liveb m 6 && (nb m 6 1 =? 8) && (tag m 6 1 =? MG_REF) && (tag m 2 2 =? 0)))
    as (m' & R & X); [vm_compute; reflexivity|].
  rewrite !andb_true_iff, !Z.eqb_eq, liveb_ok in X. destruct X as ((((C & L) & X1) & X2) & X3).
  exists hexatag, 1, 0, m'. split; [apply conformingb_ok; vm_compute; reflexivity|]. split; [apply tagsb_ok; vm_compute; reflexivity|].
  split; [apply liveb_ok; reflexivity|]. split; [left; reflexivity|]. split; [reflexivity|]. split; [exact R|]. split; [apply conformingb_ok, C|].
  intros T. destruct (T 6 1 L) as [Y _]; [right; left; reflexivity|lia|]. rewrite X1, X2 in Y. change (tag m' (8 / 3) (8 mod 3)) with (tag m' 2 2) in Y. rewrite X3 in Y. discriminate.
Qed.

(** ** The test against the closing of a hole *)
(** A domain of two materials with a triangular hole (1,2,3) on the line between them; 1 is a flat boundary point
    and 2, 3 are where the line meets the hole.  The outer boundary is 7, 9, 8, 6. *)
Definition hole_pts : list (Z * Z) := [(0,-1); (-4,0); (4,0); (-3,-4); (3,-4); (0,4); (-7,0); (7,0); (0,-8)].
Definition is_edge (l : list (Z * Z)) (a b : Z) : bool := existsb (fun e => pair_eqb e (a, b) || pair_eqb e (b, a)) l.
Definition hole_tag (a b : Z) : Z :=
  if is_edge [(1,2); (2,3); (3,1); (7,9); (9,8); (8,6); (6,7)] a b then MG_GEO + MG_BDY
  else if is_edge [(2,7); (3,8)] a b then MG_REF + MG_BDY else 0.
Definition hole : mesh := build [(1,2,4); (1,4,5); (1,5,3); (2,3,6); (2,6,7); (2,7,4); (3,8,6); (3,5,8); (4,9,5); (7,9,4); (5,9,8)] 9 hole_tag
  [18; 51; 51; 0; 0; 18; 51; 51; 18].

(** Twice the area of a triangle of the plane. *)
Definition area2 (c : Z -> Z * Z) (m : mesh) (t : Z) : Z :=
  let '(xa, ya) := c (vtx m t 0) in let '(xb, yb) := c (vtx m t 1) in let '(xc, yc) := c (vtx m t 2) in
  (xb - xa) * (yc - ya) - (xc - xa) * (yb - ya).
Definition positive (c : Z -> Z * Z) (m : mesh) : Prop := forall t, live m t -> 0 < area2 c m t.
Lemma positiveb_ok c m : forallb (fun t => 0 <? area2 c m t) (lives m) = true -> positive c m.
Proof. rewrite forallb_forall. intros H t Lt. apply Z.ltb_lt, H, lives_ok, Lt. Qed.

(** [MMG2D_chkcol] looks for the case where the collapse of a boundary edge would close a triangular hole by
    turning around the second end until a tagged edge; it stops at the line between the two materials and
    accepts the collapse, in the finite element mode as without.  Afterwards the two sides of the hole are on each other,
    and the adjacency table still says that they are boundary edges. *)
Theorem void_triangle_refuted : exists m k i c,
  conforming m /\ tags_agree m /\ positive c m /\ live m k /\ loc i /\
  (forall fem, exists l, chkcol_topo fem m k i = Ret (Some l)) /\
  exists m', collapse m k i = Ret (1, m') /\ vertices_ok m' /\ oriented m' /\ positive c m' /\ ~ adjacent m' /\
  exists x y x' y', live m' x /\ loc y /\ live m' x' /\ loc y' /\ ends m' x y = swp (ends m' x' y') /\ nb m' x y = 0 /\ nb m' x' y' = 0.
Proof.
  set (c := aget (aof (0, 0) hole_pts)).
  destruct (run_wit (collapse hole 1 2) 1 (fun m => verticesb m && orientedb m && forallb (fun t => 0 <? area2 c m t) (lives m) && liveb m 3 && liveb m 4 &&
      (nb m 3 1 =? 0) && (nb m 4 2 =? 0) && pair_eqb (ends m 4 2) (swp (ends m 3 1)))) as (m' & R & X); [vm_compute; reflexivity|].
  rewrite !andb_true_iff, !Z.eqb_eq, !liveb_ok, pair_eqb_ok in X. destruct X as (((((((X1 & X2) & X3) & X4) & X5) & X6) & X7) & X8).
  assert (L1 : loc 1) by (right; left; reflexivity). assert (L2 : loc 2) by (right; right; reflexivity).
  exists hole, 1, 2, c. split; [apply conformingb_ok; vm_compute; reflexivity|]. split; [apply tagsb_ok; vm_compute; reflexivity|].
  split; [apply positiveb_ok; vm_compute; reflexivity|]. split; [apply liveb_ok; reflexivity|]. split; [exact L2|].
  split; [intros fem; exists [3; 6; 9]; destruct fem; vm_compute; reflexivity|].
  exists m'. split; [exact R|]. split; [apply verticesb_ok, X1|]. split; [apply orientedb_ok, X2|]. split; [apply positiveb_ok, X3|]. split.
  - intros A. destruct (A 3 1 X4 L1) as [[_ N]|(l & j & Ll & Lj & E & _)]; [exact (N 4 2 X5 L2 X8)|].
    rewrite X6 in E. symmetry in E. revert E. apply (enc_pos m'); assumption.
  - exists 4, 2, 3, 1. repeat (split; [assumption|]). assumption.
Qed.

(** On a domain of one material the test refuses. *)
Example void_triangle_seen : chkcol_topo true (build [(1,2,4); (1,4,5); (1,5,3); (2,3,6); (2,6,7); (2,7,4); (3,8,6); (3,5,8); (4,9,5); (7,9,4); (5,9,8)] 9
  (fun a b => if is_edge [(2,7); (3,8)] a b then 0 else hole_tag a b) [18; 18; 18; 0; 0; 18; 18; 18; 18]) 1 2 = Ret None.
Proof. vm_compute. reflexivity. Qed.

Print Assumptions collapse_conforming.
Print Assumptions colver2_tags_refuted.
Print Assumptions void_triangle_refuted.
