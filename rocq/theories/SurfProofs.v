(** Proofs about [MMG5_setadj]: every step turns triangles over without
    changing the surface. *)
From Coq Require Import ZArith List Bool Lia.
From Coq Require Import Relations.Relation_Operators.
From Verif Require Import CBase SurfModel.
Import ListNotations.
Open Scope Z_scope.

(** ** Indices *)

Definition in3 (i : Z) : Prop := i = 0 \/ i = 1 \/ i = 2.

Lemma in3_nx i : in3 i -> in3 (nx i).
Proof. unfold in3. intros [-> | [-> | ->]]; cbv; tauto. Qed.
Lemma in3_pv i : in3 i -> in3 (pv i).
Proof. unfold in3. intros [-> | [-> | ->]]; cbv; tauto. Qed.

Lemma div3 k i : in3 i -> (3 * k + i) / 3 = k.
Proof. unfold in3. intros H. symmetry. apply (Z.div_unique _ _ _ i); lia. Qed.
Lemma mod3 k i : in3 i -> (3 * k + i) mod 3 = i.
Proof. unfold in3. intros H. symmetry. apply (Z.mod_unique _ _ k); lia. Qed.
Lemma in3_mod x : in3 (x mod 3).
Proof. unfold in3. pose proof (Z.mod_pos_bound x 3). lia. Qed.
Lemma div_mod3 x : x = 3 * (x / 3) + x mod 3.
Proof. apply Z.div_mod. lia. Qed.
Lemma eq3 k i k' i' : in3 i -> in3 i' -> 3 * k + i = 3 * k' + i' -> k = k' /\ i = i'.
Proof. unfold in3. lia. Qed.

(** The exchange of the two other indices. *)
Definition tau (ii i : Z) : Z := if i =? nx ii then pv ii else if i =? pv ii then nx ii else i.

Ltac case3 H := destruct H as [-> | [-> | ->]].

Lemma tau_in ii i : in3 ii -> in3 i -> in3 (tau ii i).
Proof. intros H H'. case3 H; case3 H'; cbv; tauto. Qed.
Lemma tau_tau ii i : in3 ii -> in3 i -> tau ii (tau ii i) = i.
Proof. intros H H'. case3 H; case3 H'; reflexivity. Qed.
Lemma tau_nx ii i : in3 ii -> in3 i -> tau ii (nx i) = pv (tau ii i).
Proof. intros H H'. case3 H; case3 H'; reflexivity. Qed.
Lemma tau_pv ii i : in3 ii -> in3 i -> tau ii (pv i) = nx (tau ii i).
Proof. intros H H'. case3 H; case3 H'; reflexivity. Qed.
Lemma tau_ii ii : in3 ii -> tau ii ii = ii.
Proof. intros H. case3 H; reflexivity. Qed.
Lemma swp_tau ii g i : in3 ii -> in3 i -> swp (nx ii) (pv ii) g i = g (tau ii i).
Proof. intros H H'. case3 H; case3 H'; reflexivity. Qed.

(** A renumbering of the vertices of a triangle, odd when [f]. *)
Definition turned (f : bool) (p : Z -> Z) : Prop :=
  forall i, in3 i -> in3 (p i) /\ p (nx i) = (if f then pv (p i) else nx (p i))
                     /\ p (pv i) = (if f then nx (p i) else pv (p i)).

Lemma turned_id : turned false (fun i => i).
Proof. intros i Hi. auto. Qed.

Lemma turned_tau f p ii : in3 ii -> turned f p -> turned (negb f) (fun i => p (tau ii i)).
Proof.
  intros Hii H i Hi.
  destruct (H (tau ii i) (tau_in _ _ Hii Hi)) as (A & B & C).
  rewrite tau_nx, tau_pv by assumption.
  destruct f; simpl in *; auto.
Qed.

Lemma turned_inj f p i j : turned f p -> in3 i -> in3 j -> p i = p j -> i = j.
Proof.
  intros H Hi Hj E.
  destruct (H 0) as (A & B & C); [left; reflexivity |]. cbn in B, C.
  destruct A as [A | [A | A]]; rewrite A in B, C; destruct f; cbn in B, C; case3 Hi; case3 Hj;
    try reflexivity; exfalso; lia.
Qed.

Lemma turned_onto f p q : turned f p -> in3 q -> exists i, in3 i /\ p i = q.
Proof.
  intros H Hq.
  destruct (H 0) as (A & B & C); [left; reflexivity |]. cbn in B, C.
  assert (in3 0 /\ in3 1 /\ in3 2) as (I0 & I1 & I2) by (unfold in3; tauto).
  destruct A as [A | [A | A]]; rewrite A in B, C; destruct f; cbn in B, C; case3 Hq;
    (exists 0; split; [assumption | congruence]) || (exists 1; split; [assumption | congruence])
    || (exists 2; split; [assumption | congruence]).
Qed.

(** ** Tags *)

Lemma tst_lor t x b : Z.land x b = 0 -> tst (Z.lor t x) b = tst t b.
Proof. intros H. unfold tst. rewrite Z.land_lor_distr_l, H, Z.lor_0_r. reflexivity. Qed.

Lemma tst_mono t x b : tst t b = true -> tst (Z.lor t x) b = true.
Proof.
  unfold tst. rewrite Z.land_lor_distr_l. rewrite !negb_true_iff, !Z.eqb_neq.
  intros H E. apply Z.lor_eq_0_iff in E. tauto.
Qed.

Lemma tst_on t x b : Z.land x b <> 0 -> tst (Z.lor t x) b = true.
Proof.
  unfold tst. rewrite Z.land_lor_distr_l. rewrite !negb_true_iff, !Z.eqb_neq.
  intros H E. apply Z.lor_eq_0_iff in E. tauto.
Qed.

Definition nom_bits (opn : bool) : Z := (if opn then T_OPN else 0) + T_NOM.

Lemma skipped_ref t : skipped (Z.lor t T_REF) = skipped t.
Proof. unfold skipped. rewrite !tst_lor by reflexivity. reflexivity. Qed.
Lemma skipped_nom t opn : skipped (Z.lor t (nom_bits opn)) = skipped t.
Proof. unfold skipped. rewrite !tst_lor by (destruct opn; reflexivity). reflexivity. Qed.
Lemma skipped_0 t : skipped (Z.lor t 0) = skipped t.
Proof. rewrite Z.lor_0_r. reflexivity. Qed.

(** ** Arrays *)

Definition put (a : arr stri) (k : Z) (f : stri -> stri) : arr stri :=
  mkArr (alen a) (upd (aget a) k (f (aget a k))).

Lemma chg_ok a k f : 0 <= k < alen a -> chg a k f = Ret (put a k f).
Proof. intros H. unfold chg. rewrite rd_ok by lia. cbn. rewrite wr_ok by lia. reflexivity. Qed.

Lemma put_same a k f : aget (put a k f) k = f (aget a k).
Proof. apply upd_same. Qed.
Lemma put_other a k f j : j <> k -> aget (put a k f) j = aget a j.
Proof. apply upd_other. Qed.
Lemma put_len a k f : alen (put a k f) = alen a.
Proof. reflexivity. Qed.

Section Surf.
Variable nt : Z.
Variable opn : bool.
Variable a0 : arr stri.

Definition ok (k : Z) : Prop := 1 <= k <= nt /\ s_eok (aget a0 k) = true.
Definition v0 k i := s_v (aget a0 k) i.
Definition tag0 k i := s_tag (aget a0 k) i.
Definition adj0 k i := s_adj (aget a0 k) i.
Definition ref0 k := s_ref (aget a0 k).
Definition walk0 k i : bool := negb (skipped (tag0 k i)) && negb (tst (tag0 k i) T_NOM).

Record valid0 : Prop := {
  v_len : alen a0 = nt + 1;
  v_pos : forall k i, ok k -> in3 i -> 0 < v0 k i;
  v_dif : forall k i, ok k -> in3 i -> v0 k (nx i) <> v0 k (pv i);
  v_adj : forall k i, ok k -> in3 i -> adj0 k i <> 0 ->
          let kk := adj0 k i / 3 in let ii := adj0 k i mod 3 in
          ok kk /\ kk <> k /\ adj0 kk ii = 3 * k + i /\ walk0 kk ii = walk0 k i /\
          ((v0 k (nx i) = v0 kk (pv ii) /\ v0 k (pv i) = v0 kk (nx ii)) \/
           (v0 k (nx i) = v0 kk (nx ii) /\ v0 k (pv i) = v0 kk (pv ii)));
  v_flag : forall k, ok k -> s_flag (aget a0 k) = 0;
  v_base : forall k, ok k -> 0 < s_base (aget a0 k)
}.

Hypothesis V : valid0.

(** ** The surface kept *)

Definition tagrel (k q t : Z) : Prop :=
  exists x, t = Z.lor (tag0 k q) x /\
    (x = 0 \/
     (adj0 k q = 0 /\ skipped (tag0 k q) = false /\ x = nom_bits opn) \/
     (adj0 k q <> 0 /\ walk0 k q = true /\ Z.abs (ref0 k) <> Z.abs (ref0 (adj0 k q / 3)) /\ x = T_REF)).

Record W (a : arr stri) (p : Z -> Z -> Z) (f : Z -> bool) : Prop := {
  w_len : alen a = nt + 1;
  w_no : forall k, 1 <= k <= nt -> ~ ok k -> forall i, s_v (aget a k) i = v0 k i;
  w_turn : forall k, ok k -> turned (f k) (p k);
  w_v : forall k i, ok k -> in3 i -> s_v (aget a k) i = v0 k (p k i);
  w_edg : forall k i, ok k -> in3 i -> s_edg (aget a k) i = s_edg (aget a0 k) (p k i);
  w_tag : forall k i, ok k -> in3 i -> tagrel k (p k i) (s_tag (aget a k) i);
  w_adj : forall k i, ok k -> in3 i ->
     (s_adj (aget a k) i = 0 /\ adj0 k (p k i) = 0) \/
     (exists kk ii, ok kk /\ in3 ii /\ s_adj (aget a k) i = 3 * kk + ii /\ adj0 k (p k i) = 3 * kk + p kk ii);
  w_ref : forall k, ok k -> s_ref (aget a k) = ref0 k
}.

Lemma W0 : W a0 (fun _ i => i) (fun _ => false).
Proof.
  constructor; try reflexivity.
  - apply V.
  - intros k Hk. apply turned_id.
  - intros k i Hk Hi. exists 0. rewrite Z.lor_0_r. auto.
  - intros k i Hk Hi. destruct (Z.eq_dec (adj0 k i) 0) as [E | E]; [left; auto | right].
    destruct (v_adj V k i Hk Hi E) as (A & _).
    exists (adj0 k i / 3), (adj0 k i mod 3).
    split; [exact A |]. split; [apply in3_mod |].
    split; apply div_mod3.
Qed.

Lemma ok_range a p f k : W a p f -> ok k -> 0 <= k < alen a.
Proof. intros HW [Hk _]. rewrite (w_len _ _ _ HW). lia. Qed.

(** What lies behind an edge. *)
Lemma behind a p f k i : W a p f -> ok k -> in3 i -> s_adj (aget a k) i <> 0 ->
  let kk := s_adj (aget a k) i / 3 in let ii := s_adj (aget a k) i mod 3 in
  ok kk /\ kk <> k /\ in3 ii /\ s_adj (aget a k) i = 3 * kk + ii /\
  adj0 k (p k i) = 3 * kk + p kk ii /\ s_adj (aget a kk) ii = 3 * k + i.
Proof.
  intros HW Hk Hi E.
  destruct (w_adj _ _ _ HW k i Hk Hi) as [[C _] | (kk & ii & Hkk & Hii & A & B)]; [contradiction |].
  rewrite A, div3, mod3 by exact Hii. cbn zeta.
  destruct (w_turn _ _ _ HW k Hk i Hi) as (Pi & _).
  destruct (w_turn _ _ _ HW kk Hkk ii Hii) as (Pii & _).
  assert (NZ : adj0 k (p k i) <> 0).
  { rewrite B. destruct Hkk as [? _]. unfold in3 in Pii. lia. }
  destruct (v_adj V k (p k i) Hk Pi NZ) as (_ & N & S & _).
  rewrite B, div3 in N by exact Pii. rewrite B, div3, mod3 in S by exact Pii.
  assert (S' : s_adj (aget a kk) ii = 3 * k + i).
  { destruct (w_adj _ _ _ HW kk ii Hkk Hii) as [[_ C] | (k' & i' & Hk' & Hi' & A' & B')].
    - rewrite S in C. destruct Hk as [? _]. unfold in3 in Pi. lia.
    - rewrite S in B'. destruct (w_turn _ _ _ HW k' Hk' i' Hi') as (Pi' & _).
      destruct (eq3 _ _ _ _ Pi Pi' B') as [<- E'].
      rewrite A'. f_equal. symmetry. exact (turned_inj _ _ _ _ (w_turn _ _ _ HW k Hk) Hi Hi' E'). }
  tauto.
Qed.

(** ** The vertices behind an edge *)

Lemma ends a p f k i : W a p f -> ok k -> in3 i -> s_adj (aget a k) i <> 0 ->
  let kk := s_adj (aget a k) i / 3 in let ii := s_adj (aget a k) i mod 3 in
  (s_v (aget a k) (nx i) = s_v (aget a kk) (pv ii) /\ s_v (aget a k) (pv i) = s_v (aget a kk) (nx ii)
   /\ s_v (aget a kk) (nx ii) <> s_v (aget a k) (nx i)) \/
  (s_v (aget a k) (nx i) = s_v (aget a kk) (nx ii) /\ s_v (aget a k) (pv i) = s_v (aget a kk) (pv ii)
   /\ s_v (aget a kk) (pv ii) <> s_v (aget a k) (nx i)).
Proof.
  intros HW Hk Hi E.
  destruct (behind _ _ _ _ _ HW Hk Hi E) as (Hkk & Nk & Hii & A & B & S).
  cbn zeta in *. set (kk := s_adj (aget a k) i / 3) in *. set (ii := s_adj (aget a k) i mod 3) in *.
  clearbody kk ii.
  destruct (w_turn _ _ _ HW k Hk i Hi) as (Pi & Pn & Pp).
  destruct (w_turn _ _ _ HW kk Hkk ii Hii) as (Qi & Qn & Qp).
  rewrite !(w_v _ _ _ HW) by (auto using in3_nx, in3_pv).
  rewrite Pn, Pp, Qn, Qp.
  assert (NZ : adj0 k (p k i) <> 0).
  { rewrite B. destruct Hkk as [? _]. unfold in3 in Qi. lia. }
  destruct (v_adj V k (p k i) Hk Pi NZ) as (_ & _ & _ & _ & C).
  rewrite B, div3, mod3 in C by exact Qi.
  pose proof (v_dif V k _ Hk Pi) as D.
  destruct (f k), (f kk); destruct C as [[C1 C2] | [C1 C2]];
    (left; repeat split; congruence) || (right; repeat split; congruence).
Qed.

(** ** Steps that only touch marks *)

(** The same triangle but for the flag and the base. *)
Definition alike (t t' : stri) : Prop :=
  s_v t' = s_v t /\ s_tag t' = s_tag t /\ s_edg t' = s_edg t /\ s_adj t' = s_adj t /\ s_ref t' = s_ref t.

Lemma alike_refl t : alike t t.
Proof. repeat split. Qed.

Lemma W_alike a a' p f : W a p f -> alen a' = alen a ->
  (forall j, alike (aget a j) (aget a' j)) -> W a' p f.
Proof.
  intros HW L H. constructor.
  - rewrite L. apply HW.
  - intros k Hk N i. destruct (H k) as (E & _). rewrite E. apply HW; assumption.
  - apply HW.
  - intros k i Hk Hi. destruct (H k) as (E & _). rewrite E. apply HW; assumption.
  - intros k i Hk Hi. destruct (H k) as (_ & _ & E & _). rewrite E. apply HW; assumption.
  - intros k i Hk Hi. destruct (H k) as (_ & E & _). rewrite E. apply HW; assumption.
  - intros k i Hk Hi. destruct (H k) as (_ & _ & _ & E & _). rewrite E. apply HW; assumption.
  - intros k Hk. destruct (H k) as (_ & _ & _ & _ & E). rewrite E. apply HW; assumption.
Qed.

Lemma W_put a p f k g : W a p f -> (forall t, alike t (g t)) -> W (put a k g) p f.
Proof.
  intros HW H. apply (W_alike a); [exact HW | reflexivity |].
  intros j. destruct (Z.eq_dec j k) as [-> | N].
  - rewrite put_same. apply H.
  - rewrite put_other by exact N. apply alike_refl.
Qed.

(** A tag added. *)
Lemma W_tag a p f k i b : W a p f -> ok k -> in3 i ->
  tagrel k (p k i) (Z.lor (s_tag (aget a k) i) b) -> W (put a k (or_tag i b)) p f.
Proof.
  intros HW Hk Hi T.
  assert (E : forall j, s_v (aget (put a k (or_tag i b)) j) = s_v (aget a j) /\
                        s_edg (aget (put a k (or_tag i b)) j) = s_edg (aget a j) /\
                        s_adj (aget (put a k (or_tag i b)) j) = s_adj (aget a j) /\
                        s_ref (aget (put a k (or_tag i b)) j) = s_ref (aget a j)).
  { intros j. destruct (Z.eq_dec j k) as [-> | N]; [rewrite put_same | rewrite put_other by exact N]; auto. }
  constructor.
  - apply HW.
  - intros j Hj N q. destruct (E j) as (-> & _). apply HW; assumption.
  - apply HW.
  - intros j q Hj Hq. destruct (E j) as (-> & _). apply HW; assumption.
  - intros j q Hj Hq. destruct (E j) as (_ & -> & _). apply HW; assumption.
  - intros j q Hj Hq. destruct (Z.eq_dec j k) as [-> | N].
    + rewrite put_same. cbn [s_tag or_tag]. destruct (Z.eq_dec q i) as [-> | N].
      * rewrite upd_same. exact T.
      * rewrite upd_other by exact N. apply HW; assumption.
    + rewrite put_other by exact N. apply HW; assumption.
  - intros j q Hj Hq. destruct (E j) as (_ & _ & -> & _). apply HW; assumption.
  - intros j Hj. destruct (E j) as (_ & _ & _ & ->). apply HW; assumption.
Qed.

Lemma tagrel_skip k q t : tagrel k q t -> skipped t = skipped (tag0 k q).
Proof.
  intros (x & -> & [-> | [(_ & _ & ->) | (_ & _ & _ & ->)]]).
  - apply skipped_0.
  - apply skipped_nom.
  - apply skipped_ref.
Qed.

Lemma tagrel_nom k q t : tagrel k q t -> adj0 k q <> 0 -> tst t T_NOM = tst (tag0 k q) T_NOM.
Proof.
  intros (x & -> & [-> | [(C & _) | (_ & _ & _ & ->)]]) N.
  - rewrite Z.lor_0_r. reflexivity.
  - contradiction.
  - apply tst_lor. reflexivity.
Qed.

Lemma tagrel_or_ref k q t : tagrel k q t -> adj0 k q <> 0 -> walk0 k q = true ->
  Z.abs (ref0 k) <> Z.abs (ref0 (adj0 k q / 3)) -> tagrel k q (Z.lor t T_REF).
Proof.
  intros (x & -> & H) N Wk R. exists T_REF. split; [| right; right; auto].
  destruct H as [-> | [(C & _) | (_ & _ & _ & ->)]].
  - rewrite Z.lor_0_r. reflexivity.
  - contradiction.
  - rewrite <- Z.lor_assoc. f_equal.
Qed.

Lemma tagrel_or_nom k q t : tagrel k q t -> adj0 k q = 0 -> skipped (tag0 k q) = false ->
  tagrel k q (Z.lor t (nom_bits opn)).
Proof.
  intros (x & -> & H) N Sk. exists (nom_bits opn). split; [| right; left; auto].
  destruct H as [-> | [(_ & _ & ->) | (C & _)]].
  - rewrite Z.lor_0_r. reflexivity.
  - rewrite <- Z.lor_assoc. f_equal. apply Z.lor_diag.
  - contradiction.
Qed.

(** ** A triangle turned over *)

Definition pupd {A} (f : Z -> A) (k : Z) (x : A) : Z -> A := upd f k x.

Lemma turn_ok a p f kk ii ip1 ip2 : W a p f -> ok kk -> in3 ii ->
  s_v (aget a kk) (nx ii) = ip1 -> s_v (aget a kk) (pv ii) = ip2 ->
  exists a1 a2 a3,
    chg a kk (turn_tri ii ip1 ip2) = Ret a1 /\ voyeur a1 kk (nx ii) = Ret a2 /\ voyeur a2 kk (pv ii) = Ret a3 /\
    W a3 (upd p kk (fun i => p kk (tau ii i))) (upd f kk (negb (f kk))) /\
    s_flag (aget a3 kk) = s_flag (aget a kk) /\ s_base (aget a3 kk) = - s_base (aget a kk) /\
    (forall j, j <> kk -> s_flag (aget a3 j) = s_flag (aget a j) /\ s_base (aget a3 j) = s_base (aget a j)
                          /\ s_tag (aget a3 j) = s_tag (aget a j)).
Proof.
  intros HW Hkk Hii V1 V2.
  pose proof (ok_range _ _ _ _ HW Hkk) as Rkk.
  assert (I1 : in3 (nx ii)) by auto using in3_nx.
  assert (I2 : in3 (pv ii)) by auto using in3_pv.
  set (a1 := put a kk (turn_tri ii ip1 ip2)).
  assert (K1 : aget a1 kk = turn_tri ii ip1 ip2 (aget a kk)) by apply put_same.
  assert (T1 : tau ii (nx ii) = pv ii) by (clear - Hii; case3 Hii; reflexivity).
  assert (T2 : tau ii (pv ii) = nx ii) by (clear - Hii; case3 Hii; reflexivity).
  assert (A1 : s_adj (aget a1 kk) (nx ii) = s_adj (aget a kk) (pv ii)).
  { rewrite K1. cbn [s_adj turn_tri]. rewrite swp_tau, T1 by assumption. reflexivity. }
  assert (A2 : s_adj (aget a1 kk) (pv ii) = s_adj (aget a kk) (nx ii)).
  { rewrite K1. cbn [s_adj turn_tri]. rewrite swp_tau, T2 by assumption. reflexivity. }
  (* the first voyeur *)
  assert (exists a2, voyeur a1 kk (nx ii) = Ret a2 /\ alen a2 = alen a /\ aget a2 kk = aget a1 kk /\
            forall j, j <> kk -> (s_v (aget a2 j) = s_v (aget a j) /\ s_tag (aget a2 j) = s_tag (aget a j) /\
              s_edg (aget a2 j) = s_edg (aget a j) /\ s_ref (aget a2 j) = s_ref (aget a j) /\
              s_flag (aget a2 j) = s_flag (aget a j) /\ s_base (aget a2 j) = s_base (aget a j)) /\
              forall q, in3 q -> ok j -> s_adj (aget a2 j) q =
                if s_adj (aget a kk) (pv ii) =? 3 * j + q then 3 * kk + nx ii else s_adj (aget a j) q)
    as (a2 & E2 & L2 & K2 & F2).
  { unfold voyeur. rewrite rd_ok by (unfold a1; rewrite put_len; exact Rkk). cbn [bind]. rewrite A1.
    destruct (Z.eqb_spec (s_adj (aget a kk) (pv ii)) 0) as [E | E].
    - exists a1. split; [reflexivity |]. split; [reflexivity |]. split; [reflexivity |].
      intros j Nj. unfold a1. rewrite put_other by exact Nj. split; [auto 10 |].
      intros q Hq [Hj _]. rewrite E.
      destruct (Z.eqb_spec 0 (3 * j + q)) as [C | C]; [unfold in3 in Hq; lia | reflexivity].
    - destruct (behind _ _ _ _ _ HW Hkk I2 E) as (Ho & No & Hq' & Ea & _ & S).
      cbn zeta in *. set (o := s_adj (aget a kk) (pv ii) / 3) in *.
      set (q' := s_adj (aget a kk) (pv ii) mod 3) in *. clearbody o q'.
      rewrite chg_ok by (exact (ok_range _ _ _ _ HW Ho)).
      eexists. split; [reflexivity |]. split; [reflexivity |].
      split; [apply put_other; auto |].
      intros j Nj. destruct (Z.eq_dec j o) as [-> | N].
      + rewrite put_same. unfold a1. rewrite put_other by exact Nj. split; [auto 10 |].
        intros q Hq Hj. cbn [s_adj set_adj]. rewrite Ea.
        destruct (Z.eqb_spec (3 * o + q') (3 * o + q)) as [C | C].
        * replace q with q' by lia. apply upd_same.
        * apply upd_other. lia.
      + rewrite put_other by exact N. unfold a1. rewrite put_other by exact Nj. split; [auto 10 |].
        intros q Hq Hj. rewrite Ea.
        destruct (Z.eqb_spec (3 * o + q') (3 * j + q)) as [C | C]; [| reflexivity].
        destruct (eq3 _ _ _ _ Hq' Hq C) as [C' _]. congruence. }
  (* the second voyeur *)
  assert (exists a3, voyeur a2 kk (pv ii) = Ret a3 /\ alen a3 = alen a /\ aget a3 kk = aget a1 kk /\
            forall j, j <> kk -> (s_v (aget a3 j) = s_v (aget a j) /\ s_tag (aget a3 j) = s_tag (aget a j) /\
              s_edg (aget a3 j) = s_edg (aget a j) /\ s_ref (aget a3 j) = s_ref (aget a j) /\
              s_flag (aget a3 j) = s_flag (aget a j) /\ s_base (aget a3 j) = s_base (aget a j)) /\
              forall q, in3 q -> ok j -> s_adj (aget a3 j) q =
                if s_adj (aget a kk) (nx ii) =? 3 * j + q then 3 * kk + pv ii
                else if s_adj (aget a kk) (pv ii) =? 3 * j + q then 3 * kk + nx ii else s_adj (aget a j) q)
    as (a3 & E3 & L3 & K3 & F3).
  { unfold voyeur. rewrite rd_ok by (rewrite L2; exact Rkk). cbn [bind]. rewrite K2, A2.
    destruct (Z.eqb_spec (s_adj (aget a kk) (nx ii)) 0) as [E | E].
    - exists a2. split; [reflexivity |]. split; [exact L2 |]. split; [exact K2 |].
      intros j Nj. destruct (F2 j Nj) as (G1 & G2). split; [exact G1 |].
      intros q Hq Hj. rewrite G2 by assumption. rewrite E.
      destruct (Z.eqb_spec 0 (3 * j + q)) as [C | C]; [destruct Hj; unfold in3 in Hq; lia | reflexivity].
    - destruct (behind _ _ _ _ _ HW Hkk I1 E) as (Ho & No & Hq' & Ea & _ & S).
      cbn zeta in *. set (o := s_adj (aget a kk) (nx ii) / 3) in *.
      set (q' := s_adj (aget a kk) (nx ii) mod 3) in *. clearbody o q'.
      rewrite chg_ok by (rewrite L2; exact (ok_range _ _ _ _ HW Ho)).
      eexists. split; [reflexivity |]. split; [exact L2 |].
      split; [rewrite put_other by auto; exact K2 |].
      intros j Nj. destruct (F2 j Nj) as (G1 & G2). destruct (Z.eq_dec j o) as [-> | N].
      + rewrite put_same. split; [exact G1 |].
        intros q Hq Hj. cbn [s_adj set_adj]. rewrite Ea.
        destruct (Z.eqb_spec (3 * o + q') (3 * o + q)) as [C | C].
        * replace q with q' by lia. apply upd_same.
        * rewrite upd_other by lia. apply G2; assumption.
      + rewrite put_other by exact N. split; [exact G1 |].
        intros q Hq Hj. rewrite Ea.
        destruct (Z.eqb_spec (3 * o + q') (3 * j + q)) as [C | C]; [| apply G2; assumption].
        destruct (eq3 _ _ _ _ Hq' Hq C) as [C' _]. congruence. }
  exists a1, a2, a3.
  split; [apply chg_ok; exact Rkk |]. split; [exact E2 |]. split; [exact E3 |].
  split; [| split; [rewrite K3, K1; reflexivity | split; [rewrite K3, K1; reflexivity |]]].
  2:{ intros j Nj. destruct (F3 j Nj) as ((_ & ? & _ & _ & ? & ?) & _). auto. }
  (* the entries that lead to kk *)
  assert (LEAD : forall j q, j <> kk -> ok j -> in3 q ->
     (forall x, in3 x -> s_adj (aget a j) q = 3 * kk + x -> s_adj (aget a3 j) q = 3 * kk + tau ii x) /\
     (forall m x, in3 x -> m <> kk -> s_adj (aget a j) q = 3 * m + x -> s_adj (aget a3 j) q = 3 * m + x) /\
     (s_adj (aget a j) q = 0 -> s_adj (aget a3 j) q = 0)).
  { intros j q Nj Hj Hq. destruct (F3 j Nj) as (_ & G). rewrite (G q Hq Hj).
    assert (BACK : forall x, in3 x -> s_adj (aget a kk) x = 3 * j + q -> s_adj (aget a j) q = 3 * kk + x).
    { intros x Hx C.
      assert (NZ : s_adj (aget a kk) x <> 0) by (rewrite C; destruct Hj; unfold in3 in Hq; lia).
      destruct (behind _ _ _ _ _ HW Hkk Hx NZ) as (_ & _ & _ & _ & _ & S).
      cbn zeta in S. rewrite C, div3, mod3 in S by exact Hq. exact S. }
    assert (FORW : forall x, in3 x -> s_adj (aget a j) q = 3 * kk + x -> s_adj (aget a kk) x = 3 * j + q).
    { intros x Hx C.
      assert (NZ : s_adj (aget a j) q <> 0) by (rewrite C; destruct Hkk; unfold in3 in Hx; lia).
      destruct (behind _ _ _ _ _ HW Hj Hq NZ) as (_ & _ & _ & _ & _ & S).
      cbn zeta in S. rewrite C, div3, mod3 in S by exact Hx. exact S. }
    split; [| split].
    - intros x Hx C. pose proof (FORW x Hx C) as C'.
      destruct (Z.eqb_spec (s_adj (aget a kk) (nx ii)) (3 * j + q)) as [D | D].
      + pose proof (BACK _ I1 D). replace x with (nx ii) by lia. rewrite T1. reflexivity.
      + destruct (Z.eqb_spec (s_adj (aget a kk) (pv ii)) (3 * j + q)) as [D' | D'].
        * pose proof (BACK _ I2 D'). replace x with (pv ii) by lia. rewrite T2. reflexivity.
        * rewrite C. f_equal. unfold tau.
          destruct (Z.eqb_spec x (nx ii)) as [-> | ?]; [contradiction |].
          destruct (Z.eqb_spec x (pv ii)) as [-> | ?]; [contradiction | reflexivity].
    - intros m x Hx Nm C.
      destruct (Z.eqb_spec (s_adj (aget a kk) (nx ii)) (3 * j + q)) as [D | D].
      + pose proof (BACK _ I1 D) as D'. rewrite C in D'. destruct (eq3 _ _ _ _ Hx I1 D'). contradiction.
      + destruct (Z.eqb_spec (s_adj (aget a kk) (pv ii)) (3 * j + q)) as [D' | D'].
        * pose proof (BACK _ I2 D') as D2. rewrite C in D2. destruct (eq3 _ _ _ _ Hx I2 D2). contradiction.
        * exact C.
    - intros C.
      destruct (Z.eqb_spec (s_adj (aget a kk) (nx ii)) (3 * j + q)) as [D | D].
      + pose proof (BACK _ I1 D). destruct Hkk. unfold in3 in I1. lia.
      + destruct (Z.eqb_spec (s_adj (aget a kk) (pv ii)) (3 * j + q)) as [D' | D'].
        * pose proof (BACK _ I2 D'). destruct Hkk. unfold in3 in I2. lia.
        * exact C. }
  clear E2 E3 F2 K2 L2.
  constructor.
  - rewrite L3. apply HW.
  - intros k Hk N i.
    assert (Nk : k <> kk) by (intros ->; contradiction).
    destruct (F3 k Nk) as ((-> & _) & _). apply HW; assumption.
  - intros k Hk. unfold upd. destruct (Z.eqb_spec k kk) as [-> | N].
    + apply turned_tau; [exact Hii |]. apply HW. exact Hk.
    + apply HW. exact Hk.
  - intros k i Hk Hi. destruct (Z.eq_dec k kk) as [-> | N].
    + rewrite upd_same, K3, K1. cbn [s_v turn_tri].
      rewrite <- (w_v _ _ _ HW) by (auto using tau_in).
      rewrite <- V1, <- V2. clear - Hii Hi. case3 Hii; case3 Hi; reflexivity.
    + rewrite upd_other by exact N. destruct (F3 k N) as ((-> & _) & _). apply HW; assumption.
  - intros k i Hk Hi. destruct (Z.eq_dec k kk) as [-> | N].
    + rewrite upd_same, K3, K1. cbn [s_edg turn_tri]. rewrite swp_tau by assumption.
      apply HW; auto using tau_in.
    + rewrite upd_other by exact N. destruct (F3 k N) as ((_ & _ & -> & _) & _). apply HW; assumption.
  - intros k i Hk Hi. destruct (Z.eq_dec k kk) as [-> | N].
    + rewrite upd_same, K3, K1. cbn [s_tag turn_tri]. rewrite swp_tau by assumption.
      apply HW; auto using tau_in.
    + rewrite upd_other by exact N. destruct (F3 k N) as ((_ & -> & _) & _). apply HW; assumption.
  - intros k i Hk Hi. destruct (Z.eq_dec k kk) as [-> | N].
    + rewrite upd_same, K3, K1. cbn [s_adj turn_tri]. rewrite swp_tau by assumption.
      pose proof (tau_in ii i Hii Hi) as Ht.
      destruct (w_adj _ _ _ HW kk (tau ii i) Hk Ht) as [C | (m & x & Hm & Hx & A & B)]; [left; exact C | right].
      exists m, x. split; [exact Hm |]. split; [exact Hx |]. split; [exact A |].
      assert (NZ : s_adj (aget a kk) (tau ii i) <> 0) by (rewrite A; destruct Hm; unfold in3 in Hx; lia).
      destruct (behind _ _ _ _ _ HW Hkk Ht NZ) as (_ & Nm & _). cbn zeta in Nm.
      rewrite A, div3 in Nm by exact Hx. rewrite upd_other by exact Nm. exact B.
    + rewrite (upd_other p _ N).
      destruct (LEAD k i N Hk Hi) as (LA & LB & LC).
      destruct (w_adj _ _ _ HW k i Hk Hi) as [[C C'] | (m & x & Hm & Hx & A & B)]; [left; auto | right].
      destruct (Z.eq_dec m kk) as [-> | Nm].
      * exists kk, (tau ii x). split; [exact Hm |]. split; [auto using tau_in |].
        split; [apply LA; assumption |]. rewrite upd_same, tau_tau by assumption. exact B.
      * exists m, x. split; [exact Hm |]. split; [exact Hx |].
        split; [apply LB; assumption |]. rewrite upd_other by exact Nm. exact B.
  - intros k Hk. destruct (Z.eq_dec k kk) as [-> | N].
    + rewrite K3, K1. cbn [s_ref turn_tri]. apply HW. exact Hk.
    + destruct (F3 k N) as ((_ & _ & _ & -> & _) & _). apply HW. exact Hk.
Qed.

(** ** Orientation *)

Variable cur : Z -> bool.
Definition oriented_by : Prop := forall k i, ok k -> in3 i -> adj0 k i <> 0 -> walk0 k i = true ->
  (v0 k (nx i) = v0 (adj0 k i / 3) (pv (adj0 k i mod 3)) <-> cur k = cur (adj0 k i / 3)).
Hypothesis O : oriented_by.

Definition side (f : Z -> bool) (k : Z) : bool := xorb (cur k) (f k).

Lemma walk_behind a p f k i : W a p f -> ok k -> in3 i -> s_adj (aget a k) i <> 0 ->
  adj0 k (p k i) <> 0 /\ adj0 k (p k i) / 3 = s_adj (aget a k) i / 3 /\
  walk0 k (p k i) = negb (skipped (s_tag (aget a k) i)) && negb (tst (s_tag (aget a k) i) T_NOM).
Proof.
  intros HW Hk Hi E.
  destruct (behind _ _ _ _ _ HW Hk Hi E) as (Hkk & Nk & Hii & A & B & S). cbn zeta in *.
  destruct (w_turn _ _ _ HW _ Hkk _ Hii) as (Pii & _).
  assert (NZ : adj0 k (p k i) <> 0) by (rewrite B; destruct Hkk; unfold in3 in Pii; lia).
  split; [exact NZ |]. split; [rewrite B; apply div3; exact Pii |].
  pose proof (w_tag _ _ _ HW k i Hk Hi) as T.
  rewrite (tagrel_skip _ _ _ T), (tagrel_nom _ _ _ T NZ). reflexivity.
Qed.

Lemma consistent a p f k i : W a p f -> ok k -> in3 i -> s_adj (aget a k) i <> 0 ->
  walk0 k (p k i) = true ->
  let kk := s_adj (aget a k) i / 3 in let ii := s_adj (aget a k) i mod 3 in
  (s_v (aget a k) (nx i) = s_v (aget a kk) (pv ii) <-> side f k = side f kk).
Proof.
  intros HW Hk Hi E Wk.
  destruct (behind _ _ _ _ _ HW Hk Hi E) as (Hkk & Nk & Hii & A & B & S).
  cbn zeta in *. set (kk := s_adj (aget a k) i / 3) in *. set (ii := s_adj (aget a k) i mod 3) in *.
  clearbody kk ii.
  destruct (w_turn _ _ _ HW k Hk i Hi) as (Pi & Pn & Pp).
  destruct (w_turn _ _ _ HW kk Hkk ii Hii) as (Qi & Qn & Qp).
  rewrite !(w_v _ _ _ HW) by (auto using in3_nx, in3_pv).
  rewrite Pn, Qp.
  assert (NZ : adj0 k (p k i) <> 0).
  { rewrite B. destruct Hkk as [? _]. unfold in3 in Qi. lia. }
  destruct (v_adj V k (p k i) Hk Pi NZ) as (_ & _ & _ & _ & C).
  pose proof (O k (p k i) Hk Pi NZ Wk) as OO.
  rewrite B, div3, mod3 in C by exact Qi. rewrite B, div3, mod3 in OO by exact Qi.
  pose proof (v_dif V k _ Hk Pi) as D. unfold side.
  destruct (f k), (f kk), (cur k), (cur kk); cbn [xorb];
    assert (T1 : true = true <-> True) by tauto; assert (T2 : false = false <-> True) by tauto;
    assert (T3 : true = false <-> False) by (split; [discriminate | tauto]);
    assert (T4 : false = true <-> False) by (split; [discriminate | tauto]);
    rewrite ?T1, ?T2, ?T3, ?T4 in *; clear T1 T2 T3 T4;
    destruct C as [[C1 C2] | [C1 C2]]; intuition congruence.
Qed.

(** ** The invariant of the walk *)

Definition fl (a : arr stri) (k : Z) : Z := s_flag (aget a k).

Definition link0 (k kk : Z) : Prop :=
  ok k /\ exists i, in3 i /\ adj0 k i <> 0 /\ walk0 k i = true /\ adj0 k i / 3 = kk.
Definition conn : Z -> Z -> Prop := clos_refl_sym_trans Z link0.

(** What the visit of the edge [i] of [j] has done. *)
Definition seen (a : arr stri) (p : Z -> Z -> Z) (j i : Z) : Prop :=
  (adj0 j (p j i) = 0 -> skipped (tag0 j (p j i)) = false ->
     forall b, Z.land (nom_bits opn) b <> 0 -> tst (s_tag (aget a j) i) b = true) /\
  (adj0 j (p j i) <> 0 -> walk0 j (p j i) = true ->
     fl a (adj0 j (p j i) / 3) = fl a j /\
     (Z.abs (ref0 j) <> Z.abs (ref0 (adj0 j (p j i) / 3)) -> tst (s_tag (aget a j) i) T_REF = true)).

Record JJ (ncc : Z) (a : arr stri) (pl U : list Z) (p : Z -> Z -> Z) (f : Z -> bool) (P : Z -> Prop) : Prop := {
  j_W : W a p f;
  j_ncc : 1 <= ncc;
  j_fl : forall j, ok j -> 0 <= fl a j <= ncc;
  j_bs : forall j, ok j -> s_base (aget a j) <> 0 /\ (fl a j = 0 -> 0 < s_base (aget a j));
  j_nd : NoDup pl;
  j_pl : forall j, In j pl -> ok j /\ fl a j = ncc;
  j_or : forall j j', ok j -> ok j' -> fl a j <> 0 -> fl a j = fl a j' -> side f j = side f j';
  j_cn : forall j j', ok j -> ok j' -> fl a j <> 0 -> fl a j = fl a j' -> conn j j';
  j_cl : forall j, ok j -> fl a j <> 0 -> ~ In j pl -> P j -> forall i, in3 i -> seen a p j i;
  j_U : forall j, ok j -> fl a j = 0 -> In j U;
  j_all : forall c, (if s_eok (aget a0 1) then 1 else 2) <= c <= ncc -> exists j, ok j /\ fl a j = c
}.

Definition work (U pl : list Z) : nat := 2 * length U + length pl.

(** The flagged triangles keep what they have. *)
Definition later (a a' : arr stri) (p p' : Z -> Z -> Z) : Prop :=
  forall j, ok j -> fl a j <> 0 ->
    fl a' j = fl a j /\ p' j = p j /\
    forall i b, in3 i -> tst (s_tag (aget a j) i) b = true -> tst (s_tag (aget a' j) i) b = true.

Lemma later_refl a p : later a a p p.
Proof. intros j Hj F. auto. Qed.

Lemma later_trans a a1 a2 p p1 p2 : later a a1 p p1 -> later a1 a2 p1 p2 -> later a a2 p p2.
Proof.
  intros H1 H2 j Hj F. destruct (H1 j Hj F) as (A & B & C).
  destruct (H2 j Hj) as (A' & B' & C'); [congruence |].
  split; [congruence |]. split; [congruence |]. intros i b Hi T. auto.
Qed.

Lemma seen_later a a' p p' j i : later a a' p p' -> ok j -> fl a j <> 0 -> in3 i -> in3 (p j i) ->
  seen a p j i -> seen a' p' j i.
Proof.
  intros L Hj F Hi Pi [S1 S2]. destruct (L j Hj F) as (A & B & C). unfold seen. rewrite B.
  split.
  - intros E K b Hb. auto.
  - intros E K. destruct (S2 E K) as (D1 & D2).
    destruct (v_adj V j (p j i) Hj Pi E) as (Hkk & _).
    destruct (L _ Hkk) as (A' & _); [congruence |]. split; [congruence | auto].
Qed.

Lemma JJ_same ncc a a' pl U p f P : JJ ncc a pl U p f P -> W a' p f ->
  (forall j, ok j -> fl a' j = fl a j) ->
  (forall j, ok j -> s_base (aget a' j) = s_base (aget a j) \/
                     (fl a j <> 0 /\ s_base (aget a' j) = - s_base (aget a j))) ->
  (forall j i b, ok j -> in3 i -> tst (s_tag (aget a j) i) b = true -> tst (s_tag (aget a' j) i) b = true) ->
  JJ ncc a' pl U p f P /\ later a a' p p.
Proof.
  intros J W' F B T.
  assert (L : later a a' p p).
  { intros j Hj _. split; [apply F; exact Hj |]. split; [reflexivity |]. intros i b Hi. apply T; assumption. }
  split; [| exact L].
  constructor.
  - exact W'.
  - apply J.
  - intros j Hj. rewrite (F j Hj). apply J. exact Hj.
  - intros j Hj. rewrite (F j Hj). destruct (j_bs _ _ _ _ _ _ _ J j Hj) as (B1 & B2).
    destruct (B j Hj) as [-> | (N & ->)]; split; try tauto; lia.
  - apply J.
  - intros j Hj. destruct (j_pl _ _ _ _ _ _ _ J j Hj) as (A1 & A2). rewrite (F j A1). auto.
  - intros j j' Hj Hj'. rewrite (F j Hj), (F j' Hj'). apply J; assumption.
  - intros j j' Hj Hj'. rewrite (F j Hj), (F j' Hj'). apply J; assumption.
  - intros j Hj N Nin Pj i Hi. rewrite (F j Hj) in N.
    destruct (w_turn _ _ _ (j_W _ _ _ _ _ _ _ J) j Hj i Hi) as (Pi & _).
    apply (seen_later a a' p p); auto. exact (j_cl _ _ _ _ _ _ _ J j Hj N Nin Pj i Hi).
  - intros j Hj. rewrite (F j Hj). apply J. exact Hj.
  - intros c Hc. destruct (j_all _ _ _ _ _ _ _ J c Hc) as (j & Hj & E). exists j. rewrite (F j Hj). auto.
Qed.

Lemma JJ_new ncc a a' pl U p f p' f' P k kk : JJ ncc a pl U p f P ->
  ok k -> fl a k = ncc -> ok kk -> fl a kk = 0 -> conn k kk ->
  W a' p' f' -> fl a' kk = ncc -> s_base (aget a' kk) <> 0 -> side f' kk = side f k ->
  (forall j, j <> kk -> fl a' j = fl a j /\ s_base (aget a' j) = s_base (aget a j)
                        /\ s_tag (aget a' j) = s_tag (aget a j) /\ p' j = p j /\ f' j = f j) ->
  JJ ncc a' (kk :: pl) (remove Z.eq_dec kk U) p' f' P /\ later a a' p p' /\
  (work (remove Z.eq_dec kk U) (kk :: pl) < work U pl)%nat.
Proof.
  intros J Hk Fk Hkk Z0 Cn W' F' B' S' OT.
  pose proof (j_ncc _ _ _ _ _ _ _ J) as N1.
  assert (Nkk : forall j, fl a j <> 0 -> j <> kk) by (intros j Hj ->; contradiction).
  assert (L : later a a' p p').
  { intros j Hj Fj. destruct (OT j (Nkk j Fj)) as (A & _ & C & D & _).
    split; [exact A |]. split; [exact D |]. intros i b Hi. rewrite C. auto. }
  assert (CASE : forall j, ok j -> fl a' j <> 0 ->
      (j = kk \/ (j <> kk /\ fl a' j = fl a j /\ fl a j <> 0 /\ side f' j = side f j))).
  { intros j Hj Fj. destruct (Z.eq_dec j kk) as [-> | N]; [left; reflexivity | right].
    destruct (OT j N) as (A & _ & _ & _ & D). unfold side. rewrite D, <- A. auto. }
  split; [| split; [exact L |]].
  - constructor.
    + exact W'.
    + exact N1.
    + intros j Hj. destruct (Z.eq_dec j kk) as [-> | N]; [lia |].
      destruct (OT j N) as (-> & _). apply J. exact Hj.
    + intros j Hj. destruct (Z.eq_dec j kk) as [-> | N]; [split; [exact B' | lia] |].
      destruct (OT j N) as (-> & -> & _). apply J. exact Hj.
    + constructor; [| apply J]. intros C. destruct (j_pl _ _ _ _ _ _ _ J kk C). lia.
    + intros j [<- | Hj]; [auto |].
      destruct (j_pl _ _ _ _ _ _ _ J j Hj) as (A1 & A2). split; [exact A1 |].
      destruct (OT j) as (-> & _); [intros ->; lia | exact A2].
    + intros j j' Hj Hj' N E.
      assert (N' : fl a' j' <> 0) by congruence.
      destruct (CASE j Hj N) as [-> | (Nj & Ej & Fj & Sj)];
        destruct (CASE j' Hj' N') as [-> | (Nj' & Ej' & Fj' & Sj')].
      * reflexivity.
      * rewrite S', Sj'. apply (j_or _ _ _ _ _ _ _ J); auto; lia.
      * rewrite S', Sj. apply (j_or _ _ _ _ _ _ _ J); auto; lia.
      * rewrite Sj, Sj'. apply (j_or _ _ _ _ _ _ _ J); auto; lia.
    + intros j j' Hj Hj' N E.
      assert (N' : fl a' j' <> 0) by congruence.
      destruct (CASE j Hj N) as [-> | (Nj & Ej & Fj & _)];
        destruct (CASE j' Hj' N') as [-> | (Nj' & Ej' & Fj' & _)].
      * apply rst_refl.
      * apply rst_trans with k; [apply rst_sym; exact Cn |]. apply (j_cn _ _ _ _ _ _ _ J); auto; lia.
      * apply rst_trans with k; [| exact Cn]. apply (j_cn _ _ _ _ _ _ _ J); auto; lia.
      * apply (j_cn _ _ _ _ _ _ _ J); auto; lia.
    + intros j Hj N Nin Pj i Hi.
      destruct (CASE j Hj N) as [-> | (Nj & Ej & Fj & _)]; [exfalso; apply Nin; left; reflexivity |].
      destruct (w_turn _ _ _ (j_W _ _ _ _ _ _ _ J) j Hj i Hi) as (Pi & _).
      apply (seen_later a a' p p'); auto. apply (j_cl _ _ _ _ _ _ _ J); auto.
      intros C. apply Nin. right. exact C.
    + intros j Hj E. destruct (Z.eq_dec j kk) as [-> | N]; [lia |].
      apply in_in_remove; [exact N |]. apply (j_U _ _ _ _ _ _ _ J); [exact Hj |].
      destruct (OT j N) as (<- & _). exact E.
    + intros c Hc. destruct (j_all _ _ _ _ _ _ _ J c Hc) as (j & Hj & E). exists j. split; [exact Hj |].
      destruct (OT j) as (-> & _); [| exact E]. intros ->. rewrite Z0 in E. clear - Hc E.
      destruct (s_eok (aget a0 1)); lia.
  - pose proof (remove_length_lt Z.eq_dec U kk (j_U _ _ _ _ _ _ _ J kk Hkk Z0)).
    unfold work. cbn [length]. lia.
Qed.

Lemma NoDup_range (l : list Z) : NoDup l -> (forall j, In j l -> 1 <= j <= nt) -> Z.of_nat (length l) <= Z.max 0 nt.
Proof.
  intros N H.
  assert (Hl : (length l <= length (map Z.of_nat (seq 1 (Z.to_nat nt))))%nat).
  { apply NoDup_incl_length; [exact N |]. intros j Hj. specialize (H j Hj).
    apply in_map_iff. exists (Z.to_nat j). split; [lia |]. apply in_seq. lia. }
  rewrite map_length, seq_length in Hl. lia.
Qed.

(** One edge visited. *)
Lemma visit_ok ncc a pl U p f k i : JJ ncc a pl U p f (fun j => j <> k) ->
  ok k -> fl a k = ncc -> ~ In k pl -> in3 i ->
  exists a' pl' U' p' f',
    visit nt opn ncc k i (mkSS a pl) = Ret (Some (mkSS a' pl')) /\
    JJ ncc a' pl' U' p' f' (fun j => j <> k) /\ fl a' k = ncc /\ ~ In k pl' /\
    (work U' pl' <= work U pl)%nat /\ later a a' p p' /\ seen a' p' k i.
Proof.
  intros J Hk Fk Nk Hi.
  pose proof (j_W _ _ _ _ _ _ _ J) as HW.
  pose proof (j_ncc _ _ _ _ _ _ _ J) as N1.
  pose proof (ok_range _ _ _ _ HW Hk) as Rk.
  pose proof (w_tag _ _ _ HW k i Hk Hi) as T.
  unfold visit. cbn [tr pile]. rewrite rd_ok by exact Rk. cbn [bind].
  destruct (skipped (s_tag (aget a k) i)) eqn:Sk.
  { exists a, pl, U, p, f. split; [reflexivity |]. split; [exact J |]. split; [exact Fk |]. split; [exact Nk |].
    split; [lia |]. split; [apply later_refl |].
    rewrite (tagrel_skip _ _ _ T) in Sk. unfold seen, walk0. rewrite Sk. cbn. split; intros; discriminate. }
  destruct (Z.eqb_spec (s_adj (aget a k) i) 0) as [E | E].
  { assert (E0 : adj0 k (p k i) = 0).
    { destruct (w_adj _ _ _ HW k i Hk Hi) as [[_ C] | (m & x & Hm & Hx & A & B)]; [exact C |].
      destruct Hm. unfold in3 in Hx. lia. }
    rewrite chg_ok by exact Rk. cbn [bind].
    change ((if opn then T_OPN else 0) + T_NOM) with (nom_bits opn).
    set (a' := put a k (or_tag i (nom_bits opn))).
    assert (W' : W a' p f).
    { apply W_tag; auto. apply tagrel_or_nom; auto. rewrite <- (tagrel_skip _ _ _ T). exact Sk. }
    assert (F' : forall j, fl a' j = fl a j /\ s_base (aget a' j) = s_base (aget a j)).
    { intros j. unfold fl, a'. destruct (Z.eq_dec j k) as [-> | N];
        [rewrite put_same | rewrite put_other by exact N]; auto. }
    destruct (JJ_same ncc a a' pl U p f _ J W') as (J' & L').
    - intros j _. apply F'.
    - intros j _. left. apply F'.
    - intros j q b Hj Hq. unfold a'. destruct (Z.eq_dec j k) as [-> | N];
        [rewrite put_same | rewrite put_other by exact N; auto].
      cbn [s_tag or_tag]. unfold upd. destruct (Z.eqb_spec q i) as [-> | Nq]; [apply tst_mono | auto].
    - exists a', pl, U, p, f. split; [reflexivity |]. split; [exact J' |].
      split; [destruct (F' k); congruence |]. split; [exact Nk |]. split; [lia |]. split; [exact L' |].
      split; [| intros; contradiction]. intros _ _ b Hb. unfold a'. rewrite put_same. cbn [s_tag or_tag].
      rewrite upd_same. apply tst_on. exact Hb. }
  destruct (walk_behind _ _ _ _ _ HW Hk Hi E) as (E0 & D0 & WK).
  destruct (tst (s_tag (aget a k) i) T_NOM) eqn:NM.
  { exists a, pl, U, p, f. split; [reflexivity |]. split; [exact J |]. split; [exact Fk |]. split; [exact Nk |].
    split; [lia |]. split; [apply later_refl |].
    rewrite Sk in WK. cbn in WK. unfold seen. split; [intros; contradiction |]. rewrite WK. intros; discriminate. }
  rewrite Sk in WK. cbn [negb andb] in WK.
  destruct (behind _ _ _ _ _ HW Hk Hi E) as (Hkk & Nkk & Hii & EA & EB & SY).
  pose proof (ends _ _ _ _ _ HW Hk Hi E) as EN.
  cbn zeta in Hkk, Nkk, Hii, EA, EB, SY, EN |- *.
  set (kk := s_adj (aget a k) i / 3) in *. set (ii := s_adj (aget a k) i mod 3) in *.
  pose proof (ok_range _ _ _ _ HW Hkk) as Rkk.
  destruct (w_turn _ _ _ HW k Hk i Hi) as (Pi & _).
  destruct (w_turn _ _ _ HW kk Hkk ii Hii) as (Pii & _).
  assert (BK : adj0 kk (p kk ii) = 3 * k + p k i /\ walk0 kk (p kk ii) = true).
  { destruct (v_adj V k (p k i) Hk Pi E0) as (_ & _ & S1 & S2 & _).
    rewrite EB, div3, mod3 in S1, S2 by exact Pii. rewrite S2. auto. }
  destruct BK as (BK1 & BK2).
  assert (BK0 : adj0 kk (p kk ii) <> 0) by (rewrite BK1; destruct Hk; unfold in3 in Pi; lia).
  assert (BK3 : adj0 kk (p kk ii) / 3 = k) by (rewrite BK1; apply div3; exact Pi).
  rewrite rd_ok by exact Rkk. cbn [bind].
  rewrite !(w_ref _ _ _ HW) by assumption.
  (* the references *)
  assert (exists a1,
     (if Z.abs (ref0 kk) =? Z.abs (ref0 k) then Ret a
      else a1 <- chg a k (or_tag i T_REF) ;; chg a1 kk (or_tag ii T_REF)) = Ret a1 /\
     W a1 p f /\
     (forall j, s_v (aget a1 j) = s_v (aget a j) /\ s_adj (aget a1 j) = s_adj (aget a j) /\
                fl a1 j = fl a j /\ s_base (aget a1 j) = s_base (aget a j)) /\
     (forall j q b, in3 q -> tst (s_tag (aget a j) q) b = true -> tst (s_tag (aget a1 j) q) b = true) /\
     (Z.abs (ref0 k) <> Z.abs (ref0 kk) -> tst (s_tag (aget a1 k) i) T_REF = true)) as (a1 & Q1 & W1 & F1 & M1 & R1).
  { destruct (Z.eqb_spec (Z.abs (ref0 kk)) (Z.abs (ref0 k))) as [ER | ER].
    - exists a. split; [reflexivity |]. split; [exact HW |]. split; [auto |]. split; [auto |]. intros C. congruence.
    - rewrite chg_ok by exact Rk. cbn [bind]. rewrite chg_ok by exact Rkk.
      eexists. split; [reflexivity |].
      assert (Wb : W (put a k (or_tag i T_REF)) p f).
      { apply W_tag; auto. apply tagrel_or_ref; auto. rewrite D0. auto. }
      split; [| split; [| split]].
      + apply W_tag; auto. rewrite put_other by exact Nkk.
        apply tagrel_or_ref; auto. 
        * apply HW; assumption.
        * rewrite BK3. exact ER.
      + intros j. unfold fl. destruct (Z.eq_dec j kk) as [-> | N].
        * rewrite put_same, put_other by exact Nkk. auto.
        * rewrite put_other by exact N. destruct (Z.eq_dec j k) as [-> | N'];
            [rewrite put_same | rewrite put_other by exact N']; auto.
      + intros j q b Hq. destruct (Z.eq_dec j kk) as [-> | N].
        * rewrite put_same, put_other by exact Nkk. cbn [s_tag or_tag]. unfold upd.
          destruct (Z.eqb_spec q ii) as [-> | Nq]; [apply tst_mono | auto].
        * rewrite put_other by exact N. destruct (Z.eq_dec j k) as [-> | N'];
            [rewrite put_same | rewrite put_other by exact N'; auto].
          cbn [s_tag or_tag]. unfold upd.
          destruct (Z.eqb_spec q i) as [-> | Nq]; [apply tst_mono | auto].
      + intros _. rewrite put_other by auto. rewrite put_same. cbn [s_tag or_tag]. rewrite upd_same.
        apply tst_on. discriminate. }
  rewrite Q1. cbn [bind].
  destruct (JJ_same ncc a a1 pl U p f _ J W1) as (J1 & L1).
  { intros j _. apply F1. }
  { intros j _. left. apply F1. }
  { intros j q b _. apply M1. }
  pose proof (w_len _ _ _ W1) as LEN1. rewrite <- (w_len _ _ _ HW) in LEN1.
  assert (Fk1 : fl a1 k = ncc) by (destruct (F1 k) as (_ & _ & -> & _); exact Fk).
  assert (NZ1 : fl a1 k <> 0) by (clear - Fk1 N1; lia).
  assert (NZ0 : fl a k <> 0) by (clear - Fk N1; lia).
  assert (CS : side f k = side f kk <-> s_v (aget a k) (nx i) = s_v (aget a kk) (pv ii)).
  { symmetry. exact (consistent _ _ _ _ _ HW Hk Hi E WK). }
  fold (fl a kk). destruct (F1 kk) as (Vkk & Akk & FLkk & BSkk). 
  destruct (Z.eqb_spec (fl a kk) 0) as [FZ | FZ].
  - (* a triangle met for the first time *)
    rewrite chg_ok by (rewrite LEN1; exact Rkk). cbn [bind].
    assert (FZ1 : fl a1 kk = 0) by congruence.
    assert (PS : push nt kk pl = Ret (kk :: pl)).
    { unfold push. replace (Z.of_nat (length pl) + 1 <=? nt) with true; [reflexivity |].
      symmetry. apply Z.leb_le.
      assert (ND : NoDup (kk :: pl)).
      { constructor; [| apply J]. intros C. destruct (j_pl _ _ _ _ _ _ _ J kk C) as (_ & X). clear - X FZ N1. lia. }
      apply NoDup_range in ND.
      - cbn [length] in ND. destruct Hk as [X _]. clear - X ND. lia.
      - intros j [<- | Hj]; [apply Hkk |]. destruct (j_pl _ _ _ _ _ _ _ J j Hj) as [[? _] _]. assumption. }
    rewrite PS. cbn [bind].
    set (a2 := put a1 kk (set_flag ncc)).
    assert (W2 : W a2 p f) by (apply W_put; [exact W1 | intros t; repeat split]).
    assert (G2 : aget a2 kk = set_flag ncc (aget a1 kk)) by apply put_same.
    assert (O2 : forall j, j <> kk -> aget a2 j = aget a1 j) by (intros; apply put_other; assumption).
    assert (CN : conn k kk).
    { apply rst_step. split; [exact Hk |]. exists (p k i). auto. }
    unfold orient. rewrite rd_ok by (unfold a2; rewrite put_len, LEN1; exact Rkk). cbn [bind].
    rewrite G2. cbn [s_v s_base set_flag]. rewrite Vkk, BSkk.
    destruct (j_bs _ _ _ _ _ _ _ J kk Hkk) as (B1 & B2). specialize (B2 FZ).
    destruct (Z.eqb_spec (s_v (aget a kk) (nx ii)) (s_v (aget a k) (nx i))) as [C | C].
    + (* turned over *)
      replace (negb (s_base (aget a kk) =? 0)) with true by (symmetry; apply negb_true_iff, Z.eqb_neq; exact B1).
      cbn [c_assert bind].
      replace (s_base (aget a kk) <? 0) with false by (symmetry; apply Z.ltb_ge; clear - B2; lia).
      assert (PV : s_v (aget a k) (pv i) = s_v (aget a kk) (pv ii) /\
                   s_v (aget a kk) (pv ii) <> s_v (aget a k) (nx i)) by (destruct EN as [(_ & _ & X) | (_ & X & Y)]; [contradiction | auto]).
      destruct PV as (PV1 & PV2).
      destruct (turn_ok a2 p f kk ii (s_v (aget a k) (nx i)) (s_v (aget a k) (pv i)) W2 Hkk Hii)
        as (b1 & b2 & b3 & Q2 & Q3 & Q4 & W3 & F3 & B3 & O3).
      { rewrite G2. cbn [s_v set_flag]. rewrite Vkk. exact C. }
      { rewrite G2. cbn [s_v set_flag]. rewrite Vkk. auto. }
      rewrite Q2. cbn [bind]. rewrite Q3. cbn [bind]. rewrite Q4. cbn [bind].
      assert (SD : side (upd f kk (negb (f kk))) kk = side f k).
      { assert (X : side f k <> side f kk) by (intros X; apply CS in X; congruence).
        unfold side in *. rewrite upd_same. clear - X.
        destruct (cur k), (cur kk), (f k), (f kk); cbn in *; congruence. }
      destruct (JJ_new ncc a1 b3 pl U p f (upd p kk (fun x => p kk (tau ii x))) (upd f kk (negb (f kk))) _ k kk J1)
        as (J3 & L3 & M3); auto.
      { unfold fl. rewrite F3, G2. reflexivity. }
      { rewrite B3, G2. cbn [s_base set_flag]. rewrite BSkk. clear - B1. lia. }
      { intros j Nj. destruct (O3 j Nj) as (X1 & X2 & X3). unfold fl. rewrite X1, X2, X3, O2 by exact Nj.
        rewrite !upd_other by exact Nj. auto. }
      destruct (L3 k Hk) as (K1 & K2 & K3); [exact NZ1 |].
      eexists b3, (kk :: pl), _, _, _. split; [reflexivity |]. split; [exact J3 |].
      split; [congruence |]. split; [intros [X | X]; [congruence | contradiction] |].
      split; [clear - M3; lia |]. split; [exact (later_trans _ _ _ _ _ _ L1 L3) |].
      unfold seen. rewrite K2. split; [intros; contradiction |]. intros _ _. rewrite D0.
      split; [| intros X; apply K3; auto].
      unfold fl at 1. rewrite F3, G2. cbn [s_flag set_flag]. congruence.
    + (* already well oriented *)
      rewrite chg_ok by (unfold a2; rewrite put_len, LEN1; exact Rkk). cbn [bind].
      set (a3 := put a2 kk neg_base).
      assert (W3 : W a3 p f) by (apply W_put; [exact W2 | intros t; repeat split]).
      assert (G3 : aget a3 kk = neg_base (aget a2 kk)) by apply put_same.
      assert (O3 : forall j, j <> kk -> aget a3 j = aget a2 j) by (intros; apply put_other; assumption).
      assert (SD : side f kk = side f k).
      { symmetry. apply CS. destruct EN as [(X & _) | (X & _)]; [exact X | symmetry in X; contradiction]. }
      destruct (JJ_new ncc a1 a3 pl U p f p f _ k kk J1) as (J3 & L3 & M3); auto.
      { unfold fl. rewrite G3, G2. reflexivity. }
      { rewrite G3, G2. cbn [s_base set_flag neg_base]. rewrite BSkk. clear - B1. lia. }
      { intros j Nj. unfold fl. rewrite O3, O2 by exact Nj. auto. }
      destruct (L3 k Hk) as (K1 & K2 & K3); [exact NZ1 |].
      eexists a3, (kk :: pl), _, _, _. split; [reflexivity |]. split; [exact J3 |].
      split; [congruence |]. split; [intros [X | X]; [congruence | contradiction] |].
      split; [clear - M3; lia |]. split; [exact (later_trans _ _ _ _ _ _ L1 L3) |].
      unfold seen. split; [intros; contradiction |]. intros _ _. rewrite D0.
      split; [| intros X; apply K3; auto].
      unfold fl at 1. rewrite G3, G2. cbn [s_flag set_flag neg_base]. congruence.
  - (* a triangle already numbered *)
    cbn [bind].
    assert (FN : fl a kk = ncc).
    { destruct (in_dec Z.eq_dec kk pl) as [X | X]; [apply (j_pl _ _ _ _ _ _ _ J kk X) |].
      destruct (j_cl _ _ _ _ _ _ _ J kk Hkk FZ X Nkk ii Hii) as (_ & Y).
      destruct (Y BK0 BK2) as (Y' & _). rewrite BK3 in Y'. congruence. }
    assert (SD : side f k = side f kk) by (apply (j_or _ _ _ _ _ _ _ J); congruence).
    apply CS in SD.
    unfold orient. rewrite rd_ok by (rewrite LEN1; exact Rkk). cbn [bind]. rewrite Vkk.
    destruct (Z.eqb_spec (s_v (aget a kk) (nx ii)) (s_v (aget a k) (nx i))) as [C | C].
    { exfalso. destruct EN as [(_ & _ & X) | (_ & _ & X)]; congruence. }
    rewrite chg_ok by (rewrite LEN1; exact Rkk). cbn [bind].
    set (a3 := put a1 kk neg_base).
    assert (W3 : W a3 p f) by (apply W_put; [exact W1 | intros t; repeat split]).
    assert (G3 : aget a3 kk = neg_base (aget a1 kk)) by apply put_same.
    assert (O3 : forall j, j <> kk -> aget a3 j = aget a1 j) by (intros; apply put_other; assumption).
    destruct (JJ_same ncc a1 a3 pl U p f _ J1 W3) as (J3 & L3).
    { intros j _. unfold fl. destruct (Z.eq_dec j kk) as [-> | N]; [rewrite G3 | rewrite O3 by exact N]; reflexivity. }
    { intros j _. destruct (Z.eq_dec j kk) as [-> | N]; [right | left; rewrite O3 by exact N; reflexivity].
      split; [congruence |]. rewrite G3. reflexivity. }
    { intros j q b _ _. destruct (Z.eq_dec j kk) as [-> | N]; [rewrite G3 | rewrite O3 by exact N]; auto. }
    destruct (L3 k Hk) as (K1 & K2 & K3); [exact NZ1 |].
    exists a3, pl, U, p, f. split; [reflexivity |]. split; [exact J3 |].
    split; [congruence |]. split; [exact Nk |]. split; [apply le_n |].
    split; [exact (later_trans _ _ _ _ _ _ L1 L3) |].
    unfold seen. split; [intros; contradiction |]. intros _ _. rewrite D0.
    split; [| intros X; apply K3; auto].
    unfold fl at 1. rewrite G3. cbn [s_flag neg_base]. unfold fl in *. congruence.
Qed.

End Surf.
