(** C14: the counter of memory. *)
From Coq Require Import ZArith List Lia Bool.
From Coq Require Import ZifyBool ZifyNat.
From Verif Require Import CBase MemModel.
Import ListNotations.
Open Scope Z_scope.

Inductive mop :=
| MAlloc (p c sz : Z)
| MResize (p prev new sz : Z)
| MGrow (p init want sz : Z)
| MDel (p : Z).

Definition mcall (sys : bool) (o : mop) (s : hst) : outcome (Z * hst) :=
  match o with
  | MAlloc p c sz => m_alloc sys p c sz s
  | MResize p prev new sz => m_resize sys p prev new sz s
  | MGrow p init want sz => m_grow sys p init want sz s
  | MDel p => m_del p s
  end.

(** A history; each call comes with the answer of the system. *)
Fixpoint mrun (l : list (mop * bool)) (s : hst) : outcome hst :=
  match l with
  | [] => Ret s
  | (o, sys) :: l => ' (_, s) <- mcall sys o s ;; mrun l s
  end.

(** Bytes in live blocks. *)
Definition total (l : list (Z * Z)) : Z := fold_right (fun b t => snd b + t) 0 l.

Definition LIM : Z := 2 ^ 62.

(** Requests of nonnegative numbers of nonempty items, of less than 2^62 bytes. *)
Definition sane (o : mop) : Prop :=
  match o with
  | MAlloc _ c sz => 0 <= c /\ 0 < sz /\ c * sz < LIM
  | MResize _ prev new sz => 0 <= prev /\ 0 <= new /\ 0 < sz /\ prev * sz < LIM /\ new * sz < LIM
  | MGrow _ init want sz => 0 <= init /\ 0 <= want /\ 0 < sz /\ (init + want + 2) * sz < LIM
  | MDel _ => True
  end.

Definition minv (s : hst) : Prop :=
  hcur s = total (hblk s) /\ hcur s <= hmax s /\ 0 <= hmax s < LIM /\
  Forall (fun b => 0 <= snd b /\ 0 < fst b < hnext s) (hblk s) /\ NoDup (map fst (hblk s)) /\ 0 < hnext s.

Lemma wrap_small x : 0 <= x < W -> wrap x = x.
Proof. intros H. apply Z.mod_small. exact H. Qed.

Lemma wrap_add x y : 0 <= x + y < W -> wrap (x + wrap y) = x + y.
Proof. intros H. unfold wrap. rewrite Zplus_mod_idemp_r. apply Z.mod_small. exact H. Qed.

Lemma total_pos l n : Forall (fun b => 0 <= snd b /\ 0 < fst b < n) l -> 0 <= total l.
Proof. induction 1 as [|b l [H _] _ IH]; cbn; [lia|unfold total in IH; lia]. Qed.

Lemma drop_notin l a : ~ In a (map fst l) -> drop l a = l.
Proof.
  induction l as [|[b n] l IH]; intros H; [reflexivity|]. cbn in *.
  destruct (Z.eqb_spec b a); [exfalso; apply H; left; assumption|]. cbn. f_equal. apply IH. intuition.
Qed.

Lemma block_total l a n : NoDup (map fst l) -> block l a = Ret n -> total l = n + total (drop l a) /\ In (a, n) l.
Proof.
  induction l as [|[b m] l IH]; intros ND E; [discriminate|]. cbn [block] in E. cbn [map fst] in ND.
  inversion ND as [|? ? Nin ND']; subst. cbn [drop filter fst].
  destruct (Z.eqb_spec b a) as [->|N].
  - injection E as ->. cbn [negb]. fold (drop l a). rewrite drop_notin by exact Nin. split; [reflexivity|left; reflexivity].
  - cbn [negb]. fold (drop l a). destruct (IH ND' E) as [T H]. cbn [total fold_right snd]. fold (total l) (total (drop l a)).
    split; [lia|right; exact H].
Qed.

Lemma block_in l a n : NoDup (map fst l) -> In (a, n) l -> block l a = Ret n.
Proof.
  induction l as [|[b m] l IH]; intros ND H; [destruct H|]. cbn [block]. cbn [map fst] in ND.
  inversion ND as [|? ? Nin ND']; subst. destruct H as [E|H].
  - injection E as -> ->. rewrite Z.eqb_refl. reflexivity.
  - destruct (Z.eqb_spec b a) as [->|]; [|apply IH; assumption]. exfalso. apply Nin. apply (in_map fst _ _ H).
Qed.

Lemma drop_sub l a b : In b (drop l a) <-> In b l /\ fst b <> a.
Proof. unfold drop. rewrite filter_In. destruct (Z.eqb_spec (fst b) a); cbn; intuition congruence. Qed.

Lemma NoDup_drop l a : NoDup (map fst l) -> NoDup (map fst (drop l a)).
Proof.
  induction l as [|[b m] l IH]; intros ND; [constructor|]. cbn [map fst] in ND. inversion ND as [|? ? Nin ND']; subst.
  cbn [drop filter fst]. fold (drop l a). destruct (b =? a); cbn [negb]; [apply IH; exact ND'|].
  cbn [map fst]. constructor; [|apply IH; exact ND'].
  intros H. apply Nin. apply in_map_iff in H. destruct H as (x & Ex & Hx). apply drop_sub in Hx.
  apply in_map_iff. exists x. split; [exact Ex|apply Hx].
Qed.

Lemma Forall_drop (P : Z * Z -> Prop) l a : Forall P l -> Forall P (drop l a).
Proof. rewrite !Forall_forall. intros H x Hx. apply H. apply drop_sub in Hx. apply Hx. Qed.

(** [add_mem] of a difference [d] that keeps the counter within 64 bits. *)
Lemma add_mem_ok s d : 0 <= hcur s -> 0 <= hcur s + d < W -> hcur s < W ->
  add_mem s (wrap d) = if hmax s <? hcur s + d then (false, s) else (true, set_cur s (hcur s + d)).
Proof.
  intros H0 H1 H2. unfold add_mem. rewrite wrap_add by exact H1. destruct (hmax s <? hcur s + d); [|reflexivity].
  f_equal. unfold wrap. rewrite Zminus_mod_idemp_r. replace (hcur s + d - d) with (hcur s) by lia.
  rewrite Z.mod_small by lia. destruct s. reflexivity.
Qed.

Lemma granted_ok n : 0 <= n < LIM -> granted true n = Ret true.
Proof.
  intros H. unfold granted, W, LIM in *. destruct (Z.leb_spec (2 ^ 64) (n + 8)); [lia|].
  destruct (Z.ltb_spec (n + 8) (2 ^ 63)); [reflexivity|lia].
Qed.

(** Adding a fresh block. *)
Lemma minv_new s p n c : Forall (fun b => 0 <= snd b /\ 0 < fst b < hnext s) (hblk s) -> NoDup (map fst (hblk s)) ->
  0 < hnext s -> 0 <= n -> c = n + total (hblk s) -> c <= hmax s -> 0 <= hmax s < LIM ->
  minv (mkH c (hmax s) ((hnext s, n) :: hblk s) (upd (hptr s) p (hnext s)) (hnext s + 1)).
Proof.
  intros F ND Hx Hn Hc Hm Hl. split; [cbn; exact Hc|]. split; [exact Hm|]. split; [exact Hl|]. cbn [hblk hnext map fst].
  split; [|split; [|lia]].
  - constructor; [cbn; lia|]. eapply Forall_impl; [|exact F]. cbn. intros b Hb. lia.
  - constructor; [|exact ND]. intros H. apply in_map_iff in H. destruct H as (b & E & H).
    rewrite Forall_forall in F. specialize (F b H). lia.
Qed.

(** A resize: the counter has been changed by [new - old] already. *)
Lemma realloc_ok s c p old new ok s' : minv s -> c = hcur s + (new - old) -> c <= hmax s ->
  0 <= old < LIM -> 0 <= new < LIM ->
  safe_realloc true (set_cur s c) p old new = Ret (ok, s') -> ok = true /\ minv s'.
Proof.
  intros (I1 & I2 & I3 & I4 & I5 & I6) Hc Hm Ho Hn. unfold safe_realloc. cbn [hptr hblk hcur hmax hnext set_cur].
  destruct (Z.eqb_spec (hptr s p) 0) as [_|N].
  - destruct (Z.eqb_spec old 0) as [->|]; [|discriminate]. cbn [c_assert bind]. unfold safe_calloc.
    rewrite granted_ok by exact Hn. cbn [bind hptr hblk hcur hmax hnext set_cur]. intros E. injection E as <- <-.
    split; [reflexivity|]. apply minv_new; auto; lia.
  - destruct (block (hblk s) (hptr s p)) as [n|] eqn:Eb; [|discriminate]. cbn [bind].
    destruct (Z.eqb_spec old n) as [->|]; [|discriminate]. cbn [c_assert bind].
    rewrite granted_ok by exact Hn. cbn [bind]. intros E. injection E as <- <-. split; [reflexivity|].
    destruct (block_total _ _ _ I5 Eb) as [T Hin].
    apply (minv_new (mkH (hcur s) (hmax s) (drop (hblk s) (hptr s p)) (hptr s) (hnext s)) p new c); cbn [hblk hmax hnext]; auto.
    + apply Forall_drop. exact I4.
    + apply NoDup_drop. exact I5.
    + lia.
    + lia.
Qed.

Lemma realloc_max sys s p old new ok s' : safe_realloc sys s p old new = Ret (ok, s') -> hmax s' = hmax s.
Proof.
  unfold safe_realloc, safe_calloc. destruct (hptr s p =? 0).
  - destruct (old =? 0); [|discriminate]. cbn [c_assert bind]. destruct (granted sys new) as [[|]|]; [| |discriminate];
      cbn [bind]; intros E; apply (f_equal (fun o => match o with Ret x => hmax (snd x) | Stuck => 0 end)) in E; symmetry; exact E.
  - destruct (block _ _); [|discriminate]. cbn [bind]. destruct (old =? a); [|discriminate]. cbn [c_assert bind].
    destruct (granted sys new) as [[|]|]; [| |discriminate];
      cbn [bind]; intros E; apply (f_equal (fun o => match o with Ret x => hmax (snd x) | Stuck => 0 end)) in E; symmetry; exact E.
Qed.

Lemma step_inv o s v s' : minv s -> sane o -> mcall true o s = Ret (v, s') ->
  minv s' /\ hmax s' = hmax s /\ (v = 0 -> s' = s).
Proof.
  intros I Hs. pose proof I as (I1 & I2 & I3 & I4 & I5 & I6).
  pose proof (total_pos _ _ I4) as Tp. unfold LIM in I3.
  destruct o as [p c sz|p prev new sz|p init want sz|p]; cbn [mcall sane] in *.
  - destruct Hs as (S1 & S2 & S3). unfold LIM in S3. unfold m_alloc.
    rewrite add_mem_ok by (unfold W; nia).
    destruct (Z.ltb_spec (hmax s) (hcur s + c * sz)); cbn [negb].
    { intros E. injection E as <- <-. auto. }
    rewrite (wrap_small (c * sz)) by (unfold W; nia).
    unfold safe_calloc. rewrite granted_ok by (unfold LIM; nia). cbn [bind hptr hblk hcur hmax hnext set_cur].
    intros E. injection E as <- <-. split; [|split; [reflexivity|discriminate]].
    apply minv_new; auto; unfold LIM; nia.
  - destruct Hs as (S1 & S2 & S3 & S4 & S5). unfold LIM in S4, S5. unfold m_resize.
    assert (Hd : (new - prev) * sz = new * sz - prev * sz) by lia.
    destruct (Z_lt_dec (hcur s + (new - prev) * sz) 0) as [Neg|Pos].
    + (* the wrapped sum would be negative: the counter overflows the limit, or the sizes mismatch *)
      unfold add_mem. assert (Ew : wrap (hcur s + wrap ((new - prev) * sz)) = hcur s + (new - prev) * sz + W).
      { unfold wrap. rewrite Zplus_mod_idemp_r. symmetry. apply Z.mod_unique with (q := -1); unfold W; [left; nia|nia]. }
      rewrite Ew. destruct (Z.ltb_spec (hmax s) (hcur s + (new - prev) * sz + W)); [|unfold W in *; nia].
      cbn [negb]. intros E. injection E as <- <-.
      assert (Es : set_cur s (wrap (hcur s + (new - prev) * sz + W - wrap ((new - prev) * sz))) = s).
      { unfold wrap. rewrite Zminus_mod_idemp_r.
        replace (hcur s + (new - prev) * sz + W - (new - prev) * sz) with (hcur s + 1 * W) by lia.
        rewrite Z.mod_add by (unfold W; lia). rewrite Z.mod_small by (unfold W; nia). destruct s; reflexivity. }
      rewrite Es. auto.
    + rewrite add_mem_ok by (unfold W; nia).
      destruct (Z.ltb_spec (hmax s) (hcur s + (new - prev) * sz)); cbn [negb].
      { intros E. injection E as <- <-. auto. }
      rewrite (wrap_small (prev * sz)), (wrap_small (new * sz)) by (unfold W; nia).
      destruct (safe_realloc true _ p (prev * sz) (new * sz)) as [[ok s1]|] eqn:Er; [|discriminate].
      cbn [bind]. intros E. injection E as <- <-.
      pose proof Er as Er'. apply realloc_ok in Er'; [|exact I|lia|lia|unfold LIM; nia|unfold LIM; nia].
      destruct Er' as [-> M]. split; [exact M|]. split; [|discriminate].
      apply realloc_max in Er. exact Er.
  - destruct Hs as (S1 & S2 & S3 & S4). unfold LIM in S4. unfold m_grow.
    destruct (Z.ltb_spec (hcur s) (hmax s)) as [Hlt|]; [|discriminate]. cbn [c_assert bind].
    assert (Hg : forall g, 1 <= g -> hcur s + g * sz <= hmax s -> (init + g + 1) * sz < LIM -> v <> 0 \/ v = 0 ->
      (let '(ok, s0) := add_mem s (wrap (g * sz)) in
       if negb ok then Ret (0, s0)
       else ' (ok, s0) <- safe_realloc true s0 p (wrap ((init + 1) * sz)) (wrap ((init + g + 1) * sz)) ;;
            Ret ((if ok then init + g else 0), s0)) = Ret (v, s') ->
      minv s' /\ hmax s' = hmax s /\ (v = 0 -> s' = s)).
    { intros g G1 G2 G3 _. unfold LIM in G3. rewrite add_mem_ok by (unfold W; nia).
      destruct (Z.ltb_spec (hmax s) (hcur s + g * sz)); [lia|]. cbn [negb].
      rewrite (wrap_small ((init + 1) * sz)), (wrap_small ((init + g + 1) * sz)) by (unfold W; nia).
      destruct (safe_realloc true _ p _ _) as [[ok s1]|] eqn:Er; [|discriminate].
      cbn [bind]. intros E. injection E as E1 <-.
      pose proof Er as Er'. apply realloc_ok in Er'; [|exact I|lia|lia|unfold LIM; nia|unfold LIM; nia].
      destruct Er' as [-> M]. split; [exact M|]. split; [|lia].
      apply realloc_max in Er. exact Er. }
    set (g0 := if want =? 0 then 1 else want).
    assert (G0 : 1 <= g0 <= want + 1) by (unfold g0; destruct (Z.eqb_spec want 0); lia).
    rewrite (wrap_small (g0 * sz)) by (unfold W; nia).
    rewrite (wrap_small (hcur s + g0 * sz)) by (unfold W; nia).
    destruct (Z.ltb_spec (hmax s) (hcur s + g0 * sz)) as [T|T]; cbn [andb].
    + assert (Q : sz * ((hmax s - hcur s) / sz) <= hmax s - hcur s) by (apply Z.mul_div_le; lia).
      assert (Q' : (hmax s - hcur s) / sz <= g0) by (apply Z.div_le_upper_bound; nia).
      destruct (Z.ltb_spec ((hmax s - hcur s) / sz) 1); [intros E; injection E as <- <-; auto|].
      apply Hg; unfold LIM; try lia; nia.
    + apply Hg; unfold LIM; try lia; nia.
  - unfold m_del. destruct (Z.eqb_spec (hptr s p) 0); [intros E; injection E as <- <-; auto|].
    destruct (block (hblk s) (hptr s p)) as [n0|] eqn:Eb; [|discriminate]. cbn [bind].
    intros E. injection E as <- <-. destruct (block_total _ _ _ I5 Eb) as [T Hin].
    assert (F : 0 <= n0) by (rewrite Forall_forall in I4; apply (I4 _ Hin)).
    pose proof (total_pos _ _ (Forall_drop _ _ (hptr s p) I4)) as Tp'.
    rewrite wrap_small by (unfold W; lia).
    split; [|split; [reflexivity|discriminate]]. split; [cbn [hcur hblk]; lia|]. cbn [hcur hmax hblk hnext].
    split; [lia|]. split; [unfold LIM; lia|]. split; [apply Forall_drop; exact I4|]. split; [apply NoDup_drop; exact I5|exact I6].
Qed.

(** ** Pointers *)

(** A pointer is NULL or the address of a live block, and two pointers differ. *)
Definition pinv (s : hst) : Prop :=
  (forall p, hptr s p <> 0 -> exists n, In (hptr s p, n) (hblk s)) /\
  (forall p q, hptr s p <> 0 -> hptr s p = hptr s q -> p = q).

(** Every live block is the target of a pointer. *)
Definition owned (s : hst) : Prop := forall a n, In (a, n) (hblk s) -> exists p, hptr s p = a.

Lemma pinv_new s p n c : minv s -> pinv s ->
  pinv (mkH c (hmax s) ((hnext s, n) :: hblk s) (upd (hptr s) p (hnext s)) (hnext s + 1)) /\
  (owned s -> hptr s p = 0 ->
   owned (mkH c (hmax s) ((hnext s, n) :: hblk s) (upd (hptr s) p (hnext s)) (hnext s + 1))).
Proof.
  intros (I1 & I2 & I3 & I4 & I5 & I6) (P1 & P2). rewrite Forall_forall in I4.
  assert (Fresh : forall q, hptr s q <> 0 -> hptr s q < hnext s).
  { intros q Hq. destruct (P1 q Hq) as (m & Hm). apply (I4 _ Hm). }
  split; [split|]; cbn [hptr hblk].
  - intros q. unfold upd. destruct (Z.eqb_spec q p); [intros _; exists n; left; reflexivity|].
    intros Hq. destruct (P1 q Hq) as (m & Hm). exists m. right. exact Hm.
  - intros q q'. unfold upd. destruct (Z.eqb_spec q p), (Z.eqb_spec q' p); intros Hq E; try congruence.
    + exfalso. destruct (Z.eq_dec (hptr s q') 0); [lia|]. specialize (Fresh q' n1). lia.
    + exfalso. specialize (Fresh q Hq). lia.
    + apply P2; assumption.
  - intros Ow Hp a m [E|H]; cbn [hptr].
    + injection E as <- <-. exists p. apply upd_same.
    + destruct (Ow a m H) as (q & Eq). exists q. rewrite upd_other; [exact Eq|]. intros ->.
      rewrite Hp in Eq. subst a. specialize (I4 _ H). cbn in I4. lia.
Qed.

Lemma pinv_del s p c mx nx : minv s -> pinv s -> hptr s p <> 0 ->
  pinv (mkH c mx (drop (hblk s) (hptr s p)) (upd (hptr s) p 0) nx) /\
  (owned s -> owned (mkH c mx (drop (hblk s) (hptr s p)) (upd (hptr s) p 0) nx)).
Proof.
  intros I (P1 & P2) Hp. split; [split|]; cbn [hptr hblk].
  - intros q. unfold upd. destruct (Z.eqb_spec q p); [congruence|]. intros Hq.
    destruct (P1 q Hq) as (m & Hm). exists m. apply drop_sub. split; [exact Hm|]. cbn. intros E.
    apply n. apply P2; assumption.
  - intros q q'. unfold upd. destruct (Z.eqb_spec q p), (Z.eqb_spec q' p); intros Hq E; try congruence.
    apply P2; assumption.
  - intros Ow a m H. cbn [hptr]. apply drop_sub in H. destruct H as [H Ha]. cbn in Ha.
    destruct (Ow a m H) as (q & Eq). exists q. rewrite upd_other; [exact Eq|]. intros ->. congruence.
Qed.

Lemma pinv_renew s p n c : minv s -> pinv s -> hptr s p <> 0 ->
  pinv (mkH c (hmax s) ((hnext s, n) :: drop (hblk s) (hptr s p)) (upd (hptr s) p (hnext s)) (hnext s + 1)) /\
  (owned s -> owned (mkH c (hmax s) ((hnext s, n) :: drop (hblk s) (hptr s p)) (upd (hptr s) p (hnext s)) (hnext s + 1))).
Proof.
  intros (I1 & I2 & I3 & I4 & I5 & I6) (P1 & P2) Hp. rewrite Forall_forall in I4.
  assert (Fresh : forall q, hptr s q <> 0 -> hptr s q < hnext s).
  { intros q Hq. destruct (P1 q Hq) as (m & Hm). apply (I4 _ Hm). }
  split; [split|]; cbn [hptr hblk].
  - intros q. unfold upd. destruct (Z.eqb_spec q p) as [|Nq]; [intros _; exists n; left; reflexivity|].
    intros Hq. destruct (P1 q Hq) as (m & Hm). exists m. right. apply drop_sub. split; [exact Hm|]. cbn. intros E.
    apply Nq. apply P2; assumption.
  - intros q q'. unfold upd. destruct (Z.eqb_spec q p), (Z.eqb_spec q' p); intros Hq E; try congruence.
    + exfalso. destruct (Z.eq_dec (hptr s q') 0) as [|Nz]; [lia|]. specialize (Fresh q' Nz). lia.
    + exfalso. specialize (Fresh q Hq). lia.
    + apply P2; assumption.
  - intros Ow a m [E|H]; cbn [hptr].
    + injection E as <- <-. exists p. apply upd_same.
    + apply drop_sub in H. destruct H as [H Ha]. cbn in Ha.
      destruct (Ow a m H) as (q & Eq). exists q. rewrite upd_other; [exact Eq|]. intros ->. congruence.
Qed.

Lemma set_cur_pinv s c : pinv s -> pinv (set_cur s c).
Proof. intros H. exact H. Qed.

Lemma realloc_pinv s c p old new s' : minv s -> pinv s ->
  safe_realloc true (set_cur s c) p old new = Ret (true, s') -> pinv s' /\ (owned s -> owned s').
Proof.
  intros I P. unfold safe_realloc, safe_calloc. cbn [hptr hblk hcur hmax hnext set_cur].
  destruct (Z.eqb_spec (hptr s p) 0) as [Z0|N].
  - destruct (old =? 0); [|discriminate]. cbn [c_assert bind].
    destruct (granted true new) as [[|]|]; [| |discriminate]; cbn [bind]; intros E; [|congruence].
    injection E as <-. destruct (pinv_new s p new c I P) as [A B]. split; [exact A|]. intros Ow. apply B; assumption.
  - destruct (block _ _); [|discriminate]. cbn [bind]. destruct (old =? a); [|discriminate]. cbn [c_assert bind].
    destruct (granted true new) as [[|]|]; [| |discriminate]; cbn [bind]; intros E; [|congruence].
    injection E as <-. apply pinv_renew; assumption.
Qed.

Lemma add_mem_cases s d ok s1 : add_mem s d = (ok, s1) -> exists c, s1 = set_cur s c.
Proof. unfold add_mem. destruct (_ <? _); intros E; injection E as <- <-; eauto. Qed.

Lemma step_pinv o s v s' : minv s -> pinv s -> sane o -> mcall true o s = Ret (v, s') ->
  pinv s' /\ (owned s -> (forall p c sz, o = MAlloc p c sz -> hptr s p = 0) -> owned s').
Proof.
  intros I P Hs E.
  pose proof (step_inv o s v s' I Hs E) as (I' & _ & Hv).
  destruct (Z.eq_dec v 0) as [V0|V0]; [rewrite (Hv V0); auto|].
  destruct o as [p c sz|p prev new sz|p init want sz|p]; cbn [mcall] in E.
  - unfold m_alloc in E. destruct (add_mem s _) as [ok s1] eqn:Ea. apply add_mem_cases in Ea. destruct Ea as (cc & ->).
    destruct ok; cbn [negb] in E; [|congruence]. unfold safe_calloc in E.
    destruct (granted true _) as [[|]|]; cbn [bind] in E; try discriminate; [|congruence].
    cbn [hptr hblk hcur hmax hnext set_cur] in E. injection E as _ <-.
    destruct (pinv_new s p (wrap (c * sz)) cc I P) as [A B]. split; [exact A|].
    intros Ow Hp. apply B; [exact Ow|]. apply (Hp p c sz eq_refl).
  - unfold m_resize in E. destruct (add_mem s _) as [ok s1] eqn:Ea. apply add_mem_cases in Ea. destruct Ea as (cc & ->).
    destruct ok; cbn [negb] in E; [|congruence].
    destruct (safe_realloc _ _ _ _ _) as [[ok s1]|] eqn:Er; [|discriminate]. cbn [bind] in E.
    destruct ok; [|congruence]. injection E as _ <-. destruct (realloc_pinv _ _ _ _ _ _ I P Er). split; auto.
  - unfold m_grow in E. destruct (hcur s <? hmax s); [|discriminate]. cbn [c_assert bind] in E.
    destruct (_ && _) in E; [congruence|].
    destruct (add_mem s _) as [ok s1] eqn:Ea. apply add_mem_cases in Ea. destruct Ea as (cc & ->).
    destruct ok; cbn [negb] in E; [|congruence].
    destruct (safe_realloc _ _ _ _ _) as [[ok s1]|] eqn:Er; [|discriminate]. cbn [bind] in E.
    destruct ok; [|congruence]. injection E as _ <-. destruct (realloc_pinv _ _ _ _ _ _ I P Er). split; auto.
  - unfold m_del in E. destruct (Z.eqb_spec (hptr s p) 0); [injection E as _ <-; auto|].
    destruct (block _ _); [|discriminate]. cbn [bind] in E. injection E as _ <-.
    destruct (pinv_del s p (wrap (hcur s - a)) (hmax s) (hnext s) I P n). split; auto.
Qed.

(** ** Histories *)

Definition sane_all (l : list (mop * bool)) : Prop := Forall (fun x => sane (fst x) /\ snd x = true) l.

Lemma hinit_inv mx : 0 <= mx < LIM -> minv (hinit mx) /\ pinv (hinit mx) /\ owned (hinit mx).
Proof.
  intros H. split; [|split].
  - split; [reflexivity|]. cbn. split; [lia|]. split; [exact H|]. split; [constructor|]. split; [constructor|lia].
  - split; cbn; intros; congruence.
  - intros a n [].
Qed.

Lemma mrun_inv l : forall s s', minv s -> pinv s -> sane_all l -> mrun l s = Ret s' ->
  minv s' /\ pinv s' /\ hmax s' = hmax s.
Proof.
  induction l as [|[o sys] l IH]; intros s s' I P F; cbn [mrun].
  - intros E. injection E as <-. auto.
  - inversion F as [|? ? [So Es] Fl]; subst. cbn in So, Es. subst sys.
    destruct (mcall true o s) as [[v s1]|] eqn:E; [|discriminate]. cbn [bind]. intros E'.
    pose proof (step_inv o s v s1 I So E) as (I1 & M1 & _). pose proof (step_pinv o s v s1 I P So E) as (P1 & _).
    destruct (IH s1 s' I1 P1 Fl E') as (A & B & C). split; [exact A|]. split; [exact B|congruence].
Qed.

(** After every history of counted requests during which the system itself never
    runs out of memory: the counter is the number of bytes in live blocks and is at
    most the limit.  Missing, because it is false: the same with a system that
    refuses a request ([C14_system_refusal_refuted], [C14_resize_refusal_refuted])
    or a negative number of items ([C14_negative_count_refuted]). *)
Theorem C14_exact_partial : forall mx l s, 0 <= mx < LIM -> sane_all l -> mrun l (hinit mx) = Ret s ->
  hcur s = total (hblk s) /\ hcur s <= mx.
Proof.
  intros mx l s Hm F E. destruct (hinit_inv mx Hm) as (I & P & _).
  destruct (mrun_inv l _ s I P F E) as (A & _ & C). cbn in C. destruct A as (A1 & A2 & _). lia.
Qed.
Print Assumptions C14_exact_partial.

(** When no live pointer is overwritten and all pointers are released, the counter
    is back to zero. *)
Theorem C14_all_released : forall mx l s, 0 <= mx < LIM -> sane_all l -> mrun l (hinit mx) = Ret s ->
  (forall l1 p c sz sys l2 s1, l = l1 ++ (MAlloc p c sz, sys) :: l2 -> mrun l1 (hinit mx) = Ret s1 -> hptr s1 p = 0) ->
  (forall p, hptr s p = 0) -> hcur s = 0.
Proof.
  intros mx l s Hm F E Hn Hz. destruct (hinit_inv mx Hm) as (I & P & O).
  assert (G : forall post pre s1, l = pre ++ post -> mrun pre (hinit mx) = Ret s1 -> minv s1 -> pinv s1 -> owned s1 ->
              mrun post s1 = Ret s -> minv s /\ owned s).
  { induction post as [|[o sys] post IH]; intros pre s1 El Ep I1 P1 O1; cbn [mrun].
    - intros E1. injection E1 as <-. auto.
    - assert (So : sane o /\ sys = true).
      { unfold sane_all in F. rewrite Forall_forall in F. apply (F (o, sys)). rewrite El. apply in_or_app. right. left. reflexivity. }
      destruct So as [So ->].
      destruct (mcall true o s1) as [[v s2]|] eqn:Ec; [|discriminate]. cbn [bind]. intros E2.
      pose proof (step_inv o s1 v s2 I1 So Ec) as (I2 & _). pose proof (step_pinv o s1 v s2 I1 P1 So Ec) as (P2 & O2).
      apply (IH (pre ++ [(o, true)]) s2).
      + rewrite El, <- app_assoc. reflexivity.
      + clear - Ep Ec. revert Ep. generalize (hinit mx). induction pre as [|[o' sys'] pre IHp]; intros s0; cbn [mrun app].
        * intros E. injection E as ->. rewrite Ec. reflexivity.
        * destruct (mcall sys' o' s0) as [[v' s0']|]; [|discriminate]. cbn [bind]. apply IHp.
      + exact I2.
      + exact P2.
      + apply O2; [exact O1|]. intros p c sz ->. apply (Hn pre p c sz true post s1 El Ep).
      + exact E2. }
  destruct (G l [] (hinit mx) eq_refl eq_refl I P O E) as (A & Ow).
  destruct A as (A1 & _ & _ & A4 & _). rewrite A1.
  destruct (hblk s) as [|[a n] t] eqn:Eb; [reflexivity|]. exfalso.
  destruct (Ow a n) as (p & Ep); [rewrite Eb; left; reflexivity|]. rewrite Hz in Ep.
  inversion A4 as [|? ? [_ B] _]; subst. cbn in B. lia.
Qed.
Print Assumptions C14_all_released.

(** What the caller owes: the recorded size of the table is its real one, and there
    is room left when a table is grown (the assertion of the macro). *)
Definition fits (s : hst) (o : mop) : Prop :=
  match o with
  | MResize p prev _ sz => if hptr s p =? 0 then prev = 0 else block (hblk s) (hptr s p) = Ret (prev * sz)
  | MGrow p init _ sz => hcur s < hmax s /\ hptr s p <> 0 /\ block (hblk s) (hptr s p) = Ret ((init + 1) * sz)
  | _ => True
  end.

(** Then no request is undefined, and a refused one leaves everything unchanged. *)
Theorem C14_request : forall mx l s o, 0 <= mx < LIM -> sane_all l -> mrun l (hinit mx) = Ret s ->
  sane o -> fits s o -> exists v s', mcall true o s = Ret (v, s') /\ (v = 0 -> s' = s).
Proof.
  intros mx l s o Hm F E So Fo. destruct (hinit_inv mx Hm) as (I0 & P0 & _).
  destruct (mrun_inv l _ s I0 P0 F E) as (I & P & _).
  enough (exists v s', mcall true o s = Ret (v, s')) as (v & s' & Ec).
  { exists v, s'. split; [exact Ec|]. apply (step_inv o s v s' I So Ec). }
  pose proof I as (I1 & I2 & I3 & I4 & I5 & I6). pose proof (total_pos _ _ I4) as Tp. unfold LIM in I3.
  destruct o as [p c sz|p prev new sz|p init want sz|p]; cbn [mcall sane fits] in *.
  - destruct So as (S1 & S2 & S3). unfold LIM in S3. unfold m_alloc. destruct (add_mem s _) as [[|] s1]; cbn [negb]; [|eauto].
    unfold safe_calloc. rewrite (wrap_small (c * sz)) by (unfold W; nia). rewrite granted_ok by (unfold LIM; nia).
    cbn [bind]. eauto.
  - destruct So as (S1 & S2 & S3 & S4 & S5). unfold LIM in S4, S5. unfold m_resize.
    destruct (add_mem s _) as [ok s1] eqn:Ea. apply add_mem_cases in Ea. destruct Ea as (cc & ->).
    destruct ok; cbn [negb]; [|eauto]. unfold safe_realloc. cbn [hptr hblk hcur hmax hnext set_cur].
    rewrite (wrap_small (prev * sz)), (wrap_small (new * sz)) by (unfold W; nia).
    destruct (hptr s p =? 0).
    + subst prev. cbn [Z.mul Z.eqb c_assert bind]. unfold safe_calloc. rewrite granted_ok by (unfold LIM; nia). cbn [bind]. eauto.
    + rewrite Fo. cbn [bind]. rewrite Z.eqb_refl. cbn [c_assert bind]. rewrite granted_ok by (unfold LIM; nia). cbn [bind]. eauto.
  - destruct So as (S1 & S2 & S3 & S4). unfold LIM in S4. destruct Fo as (F1 & F2 & F3). unfold m_grow.
    destruct (Z.ltb_spec (hcur s) (hmax s)); [|lia]. cbn [c_assert bind].
    set (g0 := if want =? 0 then 1 else want).
    assert (G0 : 1 <= g0 <= want + 1) by (unfold g0; destruct (Z.eqb_spec want 0); lia).
    rewrite (wrap_small (g0 * sz)) by (unfold W; nia). rewrite (wrap_small (hcur s + g0 * sz)) by (unfold W; nia).
    assert (Hg : forall g, 1 <= g <= g0 -> exists v s', (let '(ok, s0) := add_mem s (wrap (g * sz)) in
       if negb ok then Ret (0, s0)
       else ' (ok, s0) <- safe_realloc true s0 p (wrap ((init + 1) * sz)) (wrap ((init + g + 1) * sz)) ;;
            Ret ((if ok then init + g else 0), s0)) = Ret (v, s')).
    { intros g Hg. destruct (add_mem s _) as [ok s1] eqn:Ea. apply add_mem_cases in Ea. destruct Ea as (cc & ->).
      destruct ok; cbn [negb]; [|eauto]. unfold safe_realloc. cbn [hptr hblk hcur hmax hnext set_cur].
      rewrite (wrap_small ((init + 1) * sz)), (wrap_small ((init + g + 1) * sz)) by (unfold W; nia).
      destruct (Z.eqb_spec (hptr s p) 0); [contradiction|]. rewrite F3. cbn [bind]. rewrite Z.eqb_refl. cbn [c_assert bind].
      rewrite granted_ok by (unfold LIM; nia). cbn [bind]. eauto. }
    destruct (Z.ltb_spec (hmax s) (hcur s + g0 * sz)) as [T|T]; cbn [andb].
    + assert (Q' : (hmax s - hcur s) / sz <= g0) by (apply Z.div_le_upper_bound; nia).
      destruct (Z.ltb_spec ((hmax s - hcur s) / sz) 1); [eauto|]. apply Hg. lia.
    + apply Hg. lia.
  - unfold m_del. destruct (Z.eqb_spec (hptr s p) 0); [eauto|].
    destruct (proj1 P p n) as (m & Hin). rewrite (block_in _ _ _ I5 Hin). cbn [bind]. eauto.
Qed.
Print Assumptions C14_request.

(** A new table is granted exactly when it fits below the limit; it is then a fresh
    block of the requested size and the other blocks are untouched.  A release gives
    back exactly the block of the pointer. *)
Theorem C14_granted : forall mx l s p c sz, 0 <= mx < LIM -> sane_all l -> mrun l (hinit mx) = Ret s ->
  sane (MAlloc p c sz) -> exists v s', mcall true (MAlloc p c sz) s = Ret (v, s') /\
  (v <> 0 <-> total (hblk s) + c * sz <= mx) /\
  (v <> 0 -> hptr s' p <> 0 /\ ~ In (hptr s' p) (map fst (hblk s)) /\ hblk s' = (hptr s' p, c * sz) :: hblk s).
Proof.
  intros mx l s p c sz Hm F E (S1 & S2 & S3). destruct (hinit_inv mx Hm) as (I0 & P0 & _).
  destruct (mrun_inv l _ s I0 P0 F E) as (I & P & M). cbn in M.
  pose proof I as (I1 & I2 & I3 & I4 & I5 & I6). pose proof (total_pos _ _ I4) as Tp. unfold LIM in *.
  cbn [mcall]. unfold m_alloc, add_mem.
  rewrite (wrap_small (c * sz)), (wrap_small (hcur s + c * sz)) by (unfold W; nia).
  destruct (Z.ltb_spec (hmax s) (hcur s + c * sz)); cbn [negb].
  - do 2 eexists. split; [reflexivity|]. split; [split; lia|lia].
  - unfold safe_calloc. rewrite granted_ok by (unfold LIM; nia). cbn [bind].
    do 2 eexists. split; [reflexivity|]. split; [split; lia|]. intros _. cbn [hptr hblk hnext set_cur]. rewrite upd_same.
    split; [lia|]. split; [|reflexivity]. intros Hin. apply in_map_iff in Hin. destruct Hin as (b & Eb & Hb).
    rewrite Forall_forall in I4. specialize (I4 b Hb). lia.
Qed.
Print Assumptions C14_granted.

Theorem C14_release : forall mx l s p, 0 <= mx < LIM -> sane_all l -> mrun l (hinit mx) = Ret s ->
  exists s', mcall true (MDel p) s = Ret (1, s') /\ hptr s' p = 0 /\
  (forall a n, In (a, n) (hblk s') <-> In (a, n) (hblk s) /\ a <> hptr s p) /\
  (forall q, q <> p -> hptr s' q = hptr s q).
Proof.
  intros mx l s p Hm F E. destruct (hinit_inv mx Hm) as (I0 & P0 & _).
  destruct (mrun_inv l _ s I0 P0 F E) as (I & P & M). pose proof I as (I1 & I2 & I3 & I4 & I5 & I6).
  rewrite Forall_forall in I4. cbn [mcall]. unfold m_del.
  destruct (Z.eqb_spec (hptr s p) 0) as [Z0|N].
  - exists s. split; [reflexivity|]. split; [exact Z0|]. split; [|reflexivity].
    intros a n. split; [|tauto]. intros H. split; [exact H|]. specialize (I4 _ H). cbn in I4. lia.
  - destruct (proj1 P p N) as (m & Hin). rewrite (block_in _ _ _ I5 Hin). cbn [bind].
    eexists. split; [reflexivity|]. cbn [hptr hblk]. rewrite upd_same. split; [reflexivity|]. split.
    + intros a n. split; intros H; [apply drop_sub in H; exact H|apply drop_sub; exact H].
    + intros q Hq. apply upd_other. exact Hq.
Qed.
Print Assumptions C14_release.

(** Creation, growth that must be shortened to fit, shrinking, refusal and release. *)
Definition case14 : list (mop * bool) :=
  map (fun o => (o, true)) [MAlloc 1 11 10; MAlloc 2 5 8; MGrow 1 10 4 10; MResize 1 15 6 10; MAlloc 3 1000 8; MGrow 1 5 90 10; MDel 2].

Example C14_case_hyps : 0 <= 203 < LIM /\ sane_all case14.
Proof.
  split; [unfold LIM; lia|]. unfold sane_all, case14, LIM. repeat constructor; cbn [fst snd sane]; lia.
Qed.

Example C14_case : (s <- mrun case14 (hinit 203) ;; Ret (hcur s, map snd (hblk s))) = Ret (160, [160]).
Proof. vm_compute. reflexivity. Qed.

(** ** Refuted parts *)

(** The system refuses a block: the counter keeps the bytes that were never given. *)
Theorem C14_system_refusal_refuted : exists mx o s, 0 <= mx < LIM /\ sane o /\
  mcall false o (hinit mx) = Ret (0, s) /\ hblk s = [] /\ 0 < hcur s.
Proof.
  eexists 1000, (MAlloc 1 10 8), _. split; [unfold LIM; lia|]. split; [unfold sane, LIM; lia|].
  split; [reflexivity|]. split; [reflexivity|]. reflexivity.
Qed.
Print Assumptions C14_system_refusal_refuted.

(** The system refuses to enlarge a block: the block is released, the counter keeps
    the old and the new bytes. *)
Theorem C14_resize_refusal_refuted : exists mx l s, 0 <= mx < LIM /\ Forall (fun x => sane (fst x)) l /\
  mrun l (hinit mx) = Ret s /\ hblk s = [] /\ (forall p, hptr s p = 0) /\ 0 < hcur s.
Proof.
  eexists 1000, [(MAlloc 1 11 8, true); (MGrow 1 10 5 8, false)], _.
  split; [unfold LIM; lia|]. split; [repeat constructor; cbn; unfold LIM; lia|].
  split; [vm_compute; reflexivity|]. split; [reflexivity|]. split; [|reflexivity].
  intros p. destruct p as [|p|p]; try reflexivity. destruct p; reflexivity.
Qed.
Print Assumptions C14_resize_refusal_refuted.

(** A negative number of items (an unchecked parameter of the user, for instance a
    number of local parameters of -1) lowers the counter below the live bytes. *)
Theorem C14_negative_count_refuted : exists mx l s, 0 <= mx < LIM /\
  mrun l (hinit mx) = Ret s /\ hcur s < total (hblk s).
Proof.
  eexists 1000, [(MAlloc 1 11 8, true); (MAlloc 2 (-1) 40, true)], _.
  split; [unfold LIM; lia|]. split; [vm_compute; reflexivity|]. reflexivity.
Qed.
Print Assumptions C14_negative_count_refuted.

(** A growth that takes exactly the memory left makes the next growth abort instead
    of being refused. *)
Theorem C14_full_refuted : exists mx l s p init want sz, 0 <= mx < LIM /\ sane_all l /\
  mrun l (hinit mx) = Ret s /\ hcur s = mx /\ sane (MGrow p init want sz) /\
  block (hblk s) (hptr s p) = Ret ((init + 1) * sz) /\ mcall true (MGrow p init want sz) s = Stuck.
Proof.
  eexists 160, (map (fun o => (o, true)) [MAlloc 1 11 8; MGrow 1 10 50 8]), _, 1, 19, 3, 8.
  split; [unfold LIM; lia|]. split; [repeat constructor; cbn; unfold LIM; lia|].
  split; [vm_compute; reflexivity|]. split; [reflexivity|]. split; [unfold sane, LIM; lia|].
  split; reflexivity.
Qed.
Print Assumptions C14_full_refuted.
