(** The shell of an edge: the turn of [MMG5_coquil], [MMG5_settag] and [MMG5_deltag] around it. *)
From Coq Require Import ZArith List Lia Bool.
From Verif Require Import CBase Tet3Model Tet3Spec Tet3Proofs Walk.
Import ListNotations.
Open Scope Z_scope.

(** The tetrahedra in use point into the table of the boundary tetrahedra. *)
Definition xt_ok (m : mesh) : Prop := forall k, live m k -> 0 <= qxt (aget (m_tet m) k) < alen (m_xt m).

(** Face [i] of [k] is marked as a boundary face. *)
Definition fbdy (m : mesh) (k i : Z) : bool :=
  negb (qxt (aget (m_tet m) k) =? 0) && has_tag (xftag (aget (m_xt m) (qxt (aget (m_tet m) k))) i) MG_BDY.

(** Local number of a point, and of the vertex that is on neither side. *)
Definition find (m : mesh) (k x : Z) : Z := first (fun j => qv (aget (m_tet m) k) j =? x) [0; 1; 2; 3] 4.
Definition oth (m : mesh) (p q k f : Z) : Z :=
  first (fun j => negb (j =? f) && negb (qv (aget (m_tet m) k) j =? p) && negb (qv (aget (m_tet m) k) j =? q)) [0; 1; 2; 3] 4.

Section Shell.
Variable m : mesh.
Hypothesis T : tables_ok m.
Hypothesis VO : vertices_ok m.
Hypothesis A : adjacent m.
Variable p q : Z.
Hypothesis PQ : p <> q.

Definition state := (Z * Z)%type.
Definition Vs (s : state) : Prop :=
  live m (fst s) /\ has m (fst s) p /\ has m (fst s) q /\ loc (snd s) /\ vtx m (fst s) (snd s) <> p /\ vtx m (fst s) (snd s) <> q.
Definition rv (s : state) : state := (fst s, oth m p q (fst s) (snd s)).
Definition stp (s : state) : option state :=
  let a := nb m (fst s) (snd s) in
  if a =? 0 then None else Some (a / 4, find m (a / 4) (vtx m (fst s) (snd (rv s)))).

Lemma find_ok k a : live m k -> loc a -> find m k (vtx m k a) = a.
Proof.
  intros L La. destruct (first_vtx m k (vtx m k a) VO L) as (b & Lb & F & E); [exists a; auto|].
  unfold find. rewrite F. destruct (VO k L) as [_ J]. apply J; assumption.
Qed.

Lemma four a b f : loc a -> loc b -> loc f -> a <> b -> a <> f -> b <> f ->
  exists g, loc g /\ g <> a /\ g <> b /\ g <> f /\ forall x, loc x -> x = a \/ x = b \/ x = f \/ x = g.
Proof.
  intros La Lb Lf N1 N2 N3. exists (6 - a - b - f). unfold loc in *. 
  destruct La as [->|[->|[->| ->]]], Lb as [->|[->|[->| ->]]], Lf as [->|[->|[->| ->]]]; try congruence; repeat split; try lia.
Qed.

(** The four vertices of a tetrahedron of the shell. *)
Lemma state_four s : Vs s -> exists a b, loc a /\ loc b /\ vtx m (fst s) a = p /\ vtx m (fst s) b = q /\
  let g := snd (rv s) in loc g /\ g <> a /\ g <> b /\ g <> snd s /\ vtx m (fst s) g <> p /\ vtx m (fst s) g <> q /\
  forall x, loc x -> x = a \/ x = b \/ x = snd s \/ x = g.
Proof.
  intros (L & (a & La & Ea) & (b & Lb & Eb) & Lf & Np & Nq). destruct s as [k f]. cbn [fst snd rv] in *.
  destruct (VO k L) as [_ J]. exists a, b. do 4 (split; [assumption|]).
  assert (Nab : a <> b) by (intros ->; congruence). assert (Naf : a <> f) by (intros ->; congruence). assert (Nbf : b <> f) by (intros ->; congruence).
  destruct (four a b f La Lb Lf Nab Naf Nbf) as (g & Lg & G1 & G2 & G3 & GA).
  assert (Gp : vtx m k g <> p) by (intros E; apply G1, J; congruence). assert (Gq : vtx m k g <> q) by (intros E; apply G2, J; congruence).
  assert (OG : oth m p q k f = g).
  { unfold oth. match goal with |- first ?F _ _ = _ => destruct (first_spec F [0; 1; 2; 3] 4) as [(x & I & R & Tx)|[_ Tx]] end.
    - rewrite R. apply andb_true_iff in Tx. destruct Tx as [Tx Tq]. apply andb_true_iff in Tx. destruct Tx as [Tf Tp].
      apply negb_true_iff, Z.eqb_neq in Tf, Tp, Tq. assert (Lx : loc x) by (cbn in I; unfold loc; intuition).
      change (vtx m k x <> p) in Tp. change (vtx m k x <> q) in Tq. destruct (GA x Lx) as [->|[->|[->| ->]]]; congruence.
    - exfalso. assert (I : In g [0; 1; 2; 3]) by (unfold loc in Lg; cbn; intuition). specialize (Tx g I).
      change (qv (aget (m_tet m) k) g) with (vtx m k g) in Tx. rewrite (proj2 (Z.eqb_neq g f) G3), (proj2 (Z.eqb_neq _ _) Gp), (proj2 (Z.eqb_neq _ _) Gq) in Tx. discriminate. }
  cbv zeta. rewrite OG. auto 10.
Qed.

Lemma oth_unique s h : Vs s -> loc h -> h <> snd s -> vtx m (fst s) h <> p -> vtx m (fst s) h <> q -> snd (rv s) = h.
Proof.
  intros H Lh N1 N2 N3. destruct (state_four s H) as (a & b & La & Lb & Ea & Eb & R). cbv zeta in R.
  destruct R as (_ & _ & _ & _ & _ & _ & GA). destruct (GA h Lh) as [->|[->|[->|E]]]; congruence.
Qed.

Lemma V_rev s : Vs s -> Vs (rv s).
Proof.
  intros H. destruct (state_four s H) as (a & b & La & Lb & Ea & Eb & R). cbv zeta in R.
  destruct R as (Lg & _ & _ & _ & Gp & Gq & _). destruct H as (L & Hp & Hq & _). split; [exact L|]. auto 10.
Qed.
Lemma rv_rv s : Vs s -> rv (rv s) = s.
Proof.
  intros H. pose proof (V_rev s H) as H'. destruct (state_four s H) as (a & b & La & Lb & Ea & Eb & R). cbv zeta in R. destruct R as (_ & _ & _ & N & _).
  destruct H as (L & Hp & Hq & Lf & Np & Nq). pose proof (oth_unique (rv s) (snd s) H' Lf (not_eq_sym N) Np Nq) as E.
  rewrite (surjective_pairing (rv (rv s))), E. destruct s; reflexivity.
Qed.
Lemma rv_neq s : Vs s -> rv s <> s.
Proof.
  intros H E. destruct (state_four s H) as (a & b & La & Lb & Ea & Eb & R). cbv zeta in R. destruct R as (_ & _ & _ & N & _). apply N. rewrite E. reflexivity.
Qed.
Lemma rv_el s : Vs s -> fst (rv s) = fst s.
Proof. reflexivity. Qed.
Lemma el_eq s t : Vs s -> Vs t -> fst s = fst t -> t = s \/ t = rv s.
Proof.
  intros H H' E. destruct s as [k f], t as [k' f']. cbn [fst] in E. subst k'.
  destruct (Z.eq_dec f' f) as [->|N]; [left; reflexivity|right]. destruct H' as (_ & _ & _ & Lf & Np & Nq). cbn [fst snd] in *.
  pose proof (oth_unique (k, f) f' H Lf N Np Nq) as E. unfold rv in *. cbn [fst snd] in *. congruence.
Qed.

(** One turn: the next tetrahedron shares the face that holds the edge and the pivot. *)
Lemma step_ok s t : Vs s -> stp s = Some t ->
  let j := nb m (fst s) (snd s) mod 4 in
  fst t = nb m (fst s) (snd s) / 4 /\ Vs t /\ fst t <> fst s /\ loc j /\ rv t = (fst t, j) /\ vtx m (fst t) (snd t) = vtx m (fst s) (snd (rv s)) /\
  nb m (fst s) (snd s) <> 0 /\ nb m (fst t) j = 4 * fst s + snd s /\ same_face m (fst s) (snd s) (fst t) j.
Proof.
  intros H E. unfold stp in E. destruct (Z.eqb_spec (nb m (fst s) (snd s)) 0) as [|NZ]; [discriminate|]. injection E as <-.
  destruct (state_four s H) as (a & b & La & Lb & Ea & Eb & R). cbv zeta in R. destruct R as (Lg & G1 & G2 & G3 & Gp & Gq & GA).
  pose proof H as (L & _ & _ & Lf & Np & Nq).
  destruct (nb_dec m (fst s) (snd s) VO A L Lf NZ) as (Ll & Lj & B & NK & SF).
  set (l := nb m (fst s) (snd s) / 4) in *. set (j := nb m (fst s) (snd s) mod 4) in *.
  set (g := snd (rv s)) in *. cbn [fst snd].
  assert (Fp : on_face m l j p) by (apply SF; rewrite <- Ea; apply on_other; [exact La|intros ->; congruence]).
  assert (Fq : on_face m l j q) by (apply SF; rewrite <- Eb; apply on_other; [exact Lb|intros ->; congruence]).
  assert (Fg : on_face m l j (vtx m (fst s) g)) by (apply SF; apply on_other; assumption).
  destruct Fg as (g' & Lg' & Ng' & Eg'). change (oth m p q (fst s) (snd s)) with g. rewrite <- Eg'. rewrite find_ok by assumption.
  assert (VT : Vs (l, g')).
  { split; [exact Ll|]. split; [apply (on_has m l j), Fp|]. split; [apply (on_has m l j), Fq|]. split; [exact Lg'|]. cbn [fst snd]. split; congruence. }
  split; [reflexivity|]. split; [exact VT|]. split; [exact NK|]. split; [exact Lj|]. split; [|split; [reflexivity|split; [exact NZ|split; [exact B|exact SF]]]].
  assert (Jp : vtx m l j <> p) by (intros X; apply (not_on m l j VO Ll Lj); rewrite X; exact Fp).
  assert (Jq : vtx m l j <> q) by (intros X; apply (not_on m l j VO Ll Lj); rewrite X; exact Fq).
  pose proof (oth_unique (l, g') j VT Lj (not_eq_sym Ng') Jp Jq) as O. unfold rv in *. cbn [fst snd] in *. congruence.
Qed.

Lemma V_step s t : Vs s -> stp s = Some t -> Vs t.
Proof. intros H E. apply (step_ok s t H E). Qed.
Lemma step_back s t : Vs s -> stp s = Some t -> stp (rv t) = Some (rv s).
Proof.
  intros H E. destruct (step_ok s t H E) as (_ & VT & _ & Lj & ER & EV & _ & B & _). set (j := nb m (fst s) (snd s) mod 4) in *.
  pose proof H as (L & _ & _ & Lf & _). unfold stp. rewrite ER. cbn [fst snd]. rewrite B.
  assert (1 <= fst s) by (apply (live_pos m), L). destruct (Z.eqb_spec (4 * fst s + snd s) 0) as [X|_]; [apply loc_le in Lf; lia|].
  rewrite dec_div by exact Lf. pose proof (rv_rv t VT) as RR. rewrite ER in RR. rewrite RR, EV.
  rewrite find_ok; [reflexivity|exact L|]. destruct (V_rev s H) as (_ & _ & _ & Lg & _). exact Lg.
Qed.
Lemma step_move s t : Vs s -> stp s = Some t -> fst t <> fst s.
Proof. intros H E. apply (step_ok s t H E). Qed.

Notation pathS := (path state stp).
Definition p_nodup := path_nodup state Vs stp rv fst V_step V_rev step_back rv_rv rv_neq rv_el el_eq step_move.
Definition p_start := path_start state Vs stp rv fst V_step V_rev step_back rv_rv rv_neq rv_el el_eq step_move.
Definition p_close := path_close state Vs stp rv fst V_step V_rev step_back rv_rv rv_neq rv_el el_eq step_move.
Definition p_back := path_back state Vs stp rv fst V_step step_back rv_el.
Definition p_valid := path_valid state Vs stp V_step.

(** ** Paths and the shell *)

Lemma step_meet s t : Vs s -> stp s = Some t -> live m (fst t) /\ meet2 m p q (fst s) (fst t).
Proof.
  intros H E. destruct (step_ok s t H E) as (_ & VT & _ & Lj & _ & _ & _ & _ & SF). split; [apply VT|].
  destruct (state_four s H) as (a & b & La & Lb & Ea & Eb & R). pose proof H as (L & _ & _ & Lf & Np & Nq).
  eexists (snd s), _. split; [exact Lf|]. split; [exact Lj|]. split; [exact SF|].
  split; [rewrite <- Ea|rewrite <- Eb]; apply on_other; try assumption; intros ->; congruence.
Qed.

Lemma path_shell s l : pathS s l -> Vs s -> forall x, shell m p q x (fst s) -> forall t, In t (s :: l) -> shell m p q x (fst t).
Proof.
  induction 1 as [s|s t l E P IH]; intros H x R u [<-|Hu]; [exact R|destruct Hu|exact R|].
  destruct (step_meet s t H E) as [Lt M]. apply (IH (V_step _ _ H E) x); [|exact Hu]. apply reach_step with (fst s); assumption.
Qed.

(** A set of states without way out holds the whole shell. *)
Lemma shell_closed (S : list state) : (forall s, In s S -> Vs s) ->
  (forall s t, In s S -> (stp s = Some t \/ stp (rv s) = Some t) -> In (fst t) (map fst S)) ->
  forall x y, In x (map fst S) -> shell m p q x y -> In y (map fst S).
Proof.
  intros HV HC x y Hx R. induction R as [|y z R IH Lz (i & j & Li & Lj & SF & Op & Oq)]; [exact Hx|].
  destruct (Z.eq_dec z y) as [->|N]; [exact IH|]. apply in_map_iff in IH. destruct IH as (s & <- & Is).
  pose proof (HV s Is) as H. destruct (state_four s H) as (a & b & La & Lb & Ea & Eb & R'). cbv zeta in R'. destruct R' as (Lg & _ & _ & _ & _ & _ & GA).
  pose proof H as (L & _). assert (NB : nb m (fst s) i = 4 * z + j) by (apply nb_same; assumption).
  assert (NZ : nb m (fst s) i <> 0) by (apply live_pos in Lz; apply loc_le in Lj; lia).
  assert (Ia : i <> a) by (intros ->; apply (not_on m (fst s) a VO L La); rewrite Ea; exact Op).
  assert (Ib : i <> b) by (intros ->; apply (not_on m (fst s) b VO L Lb); rewrite Eb; exact Oq).
  destruct (GA i Li) as [?|[?|[->| ->]]]; [contradiction|contradiction| |].
  - assert (E : exists t, stp s = Some t /\ fst t = z).
    { unfold stp. rewrite NB. destruct (Z.eqb_spec (4 * z + j) 0); [congruence|]. eexists. split; [reflexivity|]. cbn [fst]. apply dec_div, Lj. }
    destruct E as (t & E & <-). apply (HC s t Is). left. exact E.
  - assert (E : exists t, stp (rv s) = Some t /\ fst t = z).
    { unfold stp. change (fst (rv s)) with (fst s). rewrite NB. destruct (Z.eqb_spec (4 * z + j) 0); [congruence|]. eexists. split; [reflexivity|]. cbn [fst]. apply dec_div, Lj. }
    destruct E as (t & E & <-). apply (HC s t Is). right. exact E.
Qed.

Lemma meet_sym y z : meet2 m p q y z -> meet2 m p q z y.
Proof. intros (i & j & Li & Lj & S & O1 & O2). exists j, i. split; [exact Lj|]. split; [exact Li|]. split; [apply same_sym, S|]. split; apply S; assumption. Qed.
Lemma shell_trans x y z : shell m p q x y -> shell m p q y z -> shell m p q x z.
Proof. intros R1 R2. induction R2 as [|y' z R2 IH L M]; [exact R1|]. apply reach_step with y'; assumption. Qed.
Lemma shell_live x y : live m x -> shell m p q x y -> live m y.
Proof. intros L R. destruct R; assumption. Qed.
Lemma shell_sym x y : live m x -> shell m p q x y -> shell m p q y x.
Proof.
  intros L R. induction R as [|y z R IH Lz M]; [apply reach_refl|]. apply shell_trans with y; [|exact IH].
  apply reach_step with z; [apply reach_refl|apply (shell_live x y L R)|apply meet_sym, M].
Qed.
Lemma shell_has x y : has m x p -> has m x q -> shell m p q x y -> has m y p /\ has m y q.
Proof.
  intros Hp Hq R. destruct R as [|y z R Lz (i & j & Li & Lj & S & O1 & O2)]; [auto|].
  split; apply (on_has m z j), S; assumption.
Qed.

Lemma path_pred s l : pathS s l -> forall t, In t l -> exists u, In u (s :: l) /\ stp u = Some t.
Proof.
  induction 1 as [s|s v l E P IH]; intros t Ht; [destruct Ht|]. destruct Ht as [<-|Ht].
  - exists s. split; [left; reflexivity|exact E].
  - destruct (IH t Ht) as (u & Iu & Eu). exists u. split; [right; exact Iu|exact Eu].
Qed.
Lemma path_succ s l : pathS s l -> forall t, In t (s :: l) -> t = last (s :: l) s \/ exists u, In u l /\ stp t = Some u.
Proof.
  induction 1 as [s|s v l E P IH]; intros t Ht.
  - destruct Ht as [<-|[]]. left. reflexivity.
  - destruct Ht as [<-|Ht]; [right; exists v; split; [left; reflexivity|exact E]|].
    destruct (IH t Ht) as [->|(u & Iu & Eu)].
    + left. change (last (v :: l) v = last (v :: l) s). symmetry. apply path_last_end.
    + right. exists u. split; [right; exact Iu|exact Eu].
Qed.

Lemma last_in (s : state) l : In (last (s :: l) s) (s :: l).
Proof.
  revert s. induction l as [|x l IH]; intros s; [left; reflexivity|right].
  change (In (last (x :: l) s) (x :: l)). rewrite (path_last_end state x l). apply IH.
Qed.

(** A path that closes, or that has no predecessor and no successor, is the whole shell. *)
Lemma closed_path s l : pathS s l -> Vs s -> ~ In (fst s) (map fst l) ->
  (stp (last (s :: l) s) = Some s \/ (stp (last (s :: l) s) = None /\ stp (rv s) = None)) ->
  forall k, In k (map fst (s :: l)) <-> shell m p q (fst s) k.
Proof.
  intros P H N C k. pose proof (p_valid _ _ P H) as PV. split.
  - intros I. apply in_map_iff in I. destruct I as (t & <- & It). apply (path_shell s l P H (fst s)); [apply reach_refl|exact It].
  - apply shell_closed; [exact PV| |left; reflexivity]. intros u t Iu [E|E].
    + destruct (path_succ _ _ P u Iu) as [->|(w & Iw & Ew)].
      * destruct C as [C|[C _]]; [|congruence]. rewrite E in C. injection C as ->. left. reflexivity.
      * rewrite E in Ew. injection Ew as ->. apply in_map. right. exact Iw.
    + destruct Iu as [<-|Iu].
      * destruct C as [C|[_ C]]; [|congruence].
        assert (VL : Vs (last (s :: l) s)) by (apply PV, last_in).
        rewrite (step_back _ _ VL C) in E. injection E as <-. exact (in_map fst (s :: l) (last (s :: l) s) (last_in s l)).
      * destruct (path_pred _ _ P u Iu) as (w & Iw & Ew). rewrite (step_back _ _ (PV w Iw) Ew) in E. injection E as <-. exact (in_map fst (s :: l) w Iw).
Qed.
End Shell.
