(** The hash table functions implement the maps of [HashSpec]. *)
From Coq Require Import ZArith List Lia Bool.
From Coq Require Import ZifyBool ZifyNat.
From Verif Require Import CBase HashModel HashInv HashOps HashSpec.
Import ListNotations.
Open Scope Z_scope.

Notation it h := (aget (hitem h)).

Ltac rdwr := repeat first
  [ rewrite rd_ok by (cbn [alen]; lia) | rewrite wr_ok by (cbn [alen]; lia) | progress cbn [bind] ].

(** ** Removal *)

Lemma inv_len kd h : Inv kd h -> alen (hitem h) <> 0.
Proof. intros [B [F [I _]]]. pose proof (i_siz _ _ _ _ I). pose proof (i_len _ _ _ _ I). lia. Qed.

Lemma eq_edge_kd a b n : eq_edge a b n = true <-> kd_edge n = (a, b, 0).
Proof.
  unfold eq_edge, kd_edge. rewrite andb_true_iff, !Z.eqb_eq. split.
  - intros [-> ->]. reflexivity.
  - intros E. inversion E. auto.
Qed.

Lemma kd_edge_q a b n : kd_edge n = (a, b, 0) -> na n = a /\ nb n = b.
Proof. intros E. inversion E. auto. Qed.

Lemma holds_slot kd h s : live h s -> holds kd h (kd (it h s)) (nk (it h s)) (ntag (it h s)).
Proof. intros L. exists s. auto. Qed.

Section Edge.
Variables (h : htab) (a b : Z).
Hypothesis HI : Inv kd_edge h.
Hypothesis Ha : 0 < a.
Hypothesis Hb : 0 < b.

Let ia := Z.min a b.
Let ib := Z.max a b.
Let q : Z * Z * Z := (ia, ib, 0).
Let key := hkey (hsiz h) ia ib.

Lemma pop_item_spec :
  exists r h', pop_item h a b = Ret (r, h') /\ Inv kd_edge h' /\
    match r with
    | None => h' = h /\ absent kd_edge h q
    | Some n => holds kd_edge h q (nk n) (ntag n) /\
        forall q' k t, holds kd_edge h' q' k t <-> (q' <> q /\ holds kd_edge h q' k t)
    end.
Proof.
  destruct HI as [B [F [I HF]]].
  pose proof (i_siz _ _ _ _ I) as Hsiz. pose proof (i_len _ _ _ _ I) as Hlen.
  destruct (find_cases _ h B F I (eq_edge ia ib) q ia ib (eq_edge_kd ia ib) (kd_edge_q ia ib)
              ltac:(lia) ltac:(lia)) as [Rk C].
  pose proof (key_range _ h B F I ia ib ltac:(lia) ltac:(lia)) as Hk.
  fold key in Rk, C, Hk.
  unfold pop_item. fold ia ib. rewrite (ckey_ok _ h B F I). cbn [bind]. fold key. rewrite Rk. cbn [bind].
  assert (Hdel : forall x h', live h x -> kd_edge (it h x) = q -> hmax h' = hmax h ->
     (forall s, live h' s -> exists s0, live h s0 /\ s0 <> x /\ sig kd_edge (it h' s) = sig kd_edge (it h s0)) ->
     (forall s, live h s -> s <> x -> exists s', live h' s' /\ sig kd_edge (it h' s') = sig kd_edge (it h s)) ->
     forall q' k t, holds kd_edge h' q' k t <-> (q' <> q /\ holds kd_edge h q' k t)).
  { intros x h' Lx Kx Em H1 H2. apply holds_del.
    - intros s L. destruct (H1 s L) as [s0 [L0 [N0 E0]]]. exists s0. split; [exact L0|]. split; [exact E0|].
      intros K. apply N0. eapply i_uniq; eauto. congruence.
    - intros s L N. apply H2; [exact L|]. intros ->. congruence. }
  destruct C as [[E0 [Em [Habs HB]]]|[[N0 [Em L]]|[[N0 [Em W]]|[N0 [Em [Habs [W1 [W2 W3]]]]]]]].
  - rewrite E0. cbn [Z.eqb]. exists None, h. split; [reflexivity|]. split; [exact HI|]. auto.
  - destruct (Z.eqb_spec (na (it h key)) 0); [congruence|]. rewrite Em.
    assert (Kq : kd_edge (it h key) = q) by (apply eq_edge_kd; exact Em).
    destruct (Z.eqb_spec (nnxt (it h key)) 0) as [En|Nn].
    + rdwr. eexists. eexists. split; [reflexivity|].
      set (h' := set_item h _).
      assert (Hit : forall j, it h' j = if j =? key then node0 else it h j) by reflexivity.
      split; [|split].
      * exists B, F. split; [|exact HF]. eapply pop_single_inv; eauto; reflexivity.
      * rewrite <- Kq. apply holds_slot. exact L.
      * apply (Hdel key); auto.
        -- intros s [Hs Hl]. rewrite Hit in *. destruct (Z.eqb_spec s key); [simpl in Hl; lia|].
           exists s. repeat split; auto; exact (proj1 Hs) || exact (proj2 Hs).
        -- intros s [Hs Hl] N. exists s. unfold live. rewrite Hit. destruct (Z.eqb_spec s key); [congruence|].
           split; [|reflexivity]. split; [exact Hs | exact Hl].
    + pose proof (i_chain _ _ _ _ I key Hk) as Hc.
      destruct (B key) as [|x l] eqn:EB; [simpl in Hc; congruence|].
      simpl in Hc. destruct Hc as [Ex _]. rewrite Ex.
      assert (Hxin : In x (B key)) by (rewrite EB; left; reflexivity).
      destruct (i_over _ _ _ _ I key x Hk Hxin) as [Hx [Hxl _]].
      rdwr. eexists. eexists. split; [reflexivity|].
      set (h' := mkH _ _ _ _).
      assert (Hit : forall j, it h' j = if j =? x then set_nxt node0 (hnxt h) else if j =? key then it h x else it h j) by reflexivity.
      split; [|split].
      * exists (upd B key l), (x :: F). split; [|discriminate]. eapply pop_head_inv; eauto; reflexivity.
      * rewrite <- Kq. apply holds_slot. exact L.
      * apply (Hdel key); auto.
        -- intros s [Hs Hl]. rewrite Hit in *. destruct (Z.eqb_spec s x); [simpl in Hl; lia|].
           destruct (Z.eqb_spec s key).
           ++ exists x. split; [split; [lia|exact Hxl]|]. split; [lia|reflexivity].
           ++ exists s. split; [split; [exact Hs|exact Hl]|]. split; [exact n1|reflexivity].
        -- intros s [Hs Hl] N. destruct (Z.eq_dec s x) as [->|Nx].
           ++ exists key. unfold live. rewrite Hit. destruct (Z.eqb_spec key x); [lia|]. rewrite Z.eqb_refl.
              split; [|reflexivity]. split; [cbn [hmax h']; lia | exact Hl].
           ++ exists s. unfold live. rewrite Hit. destruct (Z.eqb_spec s x); [congruence|].
              destruct (Z.eqb_spec s key); [congruence|]. split; [|reflexivity]. split; [exact Hs | exact Hl].
  - destruct (Z.eqb_spec (na (it h key)) 0); [congruence|]. rewrite Em.
    destruct W as [l1 [x [l2 [EB [Hm [Lx [_ [_ W3]]]]]]]]. rewrite W3. cbn [bind].
    assert (Kq : kd_edge (it h x) = q) by (apply eq_edge_kd; exact Hm).
    set (p := last (key :: l1) key).
    assert (Hxin : In x (B key)) by (rewrite EB; apply in_or_app; right; left; reflexivity).
    destruct (i_over _ _ _ _ I key x Hk Hxin) as [Hx [Hxl _]].
    assert (Hp : 0 <= p < hmax h /\ p <> x /\ nnxt (it h p) = x).
    { pose proof (i_chain _ _ _ _ I key Hk) as Hc. pose proof (path_nodup _ _ _ _ Hc) as Hnd.
      rewrite EB in Hc, Hnd. unfold p.
      destruct l1 as [|y l1] using rev_ind; [|clear IHl1].
      - simpl. simpl in Hc. split; [lia|]. split; [lia | apply Hc].
      - rewrite app_comm_cons, last_last.
        assert (Hyin : In y (B key)) by (rewrite EB, <- app_assoc; apply in_or_app; right; left; reflexivity).
        destruct (i_over _ _ _ _ I key y Hk Hyin) as [Hy _].
        split; [lia|]. rewrite <- app_assoc in Hc, Hnd. simpl in Hc, Hnd. split.
        + intros ->. apply NoDup_remove_2 in Hnd. apply Hnd. apply in_or_app. right. left. reflexivity.
        + apply path_suffix in Hc. simpl in Hc. apply Hc. }
    destruct Hp as [Hp1 [Hp2 Hp3]].
    assert (Hgoal : forall h', hsiz h' = hsiz h -> hmax h' = hmax h -> hnxt h' = x -> alen (hitem h') = alen (hitem h) ->
       (forall j, it h' j = if j =? x then set_nxt node0 (hnxt h)
                       else if j =? p then set_nxt (it h p) (nnxt (it h x)) else it h j) ->
       Inv kd_edge h' /\ holds kd_edge h q (nk (it h x)) (ntag (it h x)) /\
        forall q' k t, holds kd_edge h' q' k t <-> (q' <> q /\ holds kd_edge h q' k t)).
    { intros h' F1 F2 F3 F4 Hit. split; [|split].
      - exists (upd B key (l1 ++ l2)), (x :: F). split; [|discriminate].
        eapply pop_mid_inv; eauto. exact kd_edge_ok.
      - rewrite <- Kq. apply holds_slot. exact Lx.
      - assert (Hsg : forall j, j <> x -> sig kd_edge (it h' j) = sig kd_edge (it h j) /\ na (it h' j) = na (it h j)).
        { intros j N. rewrite Hit. destruct (Z.eqb_spec j x); [congruence|].
          destruct (Z.eqb_spec j p) as [->|N2]; auto. }
        apply (Hdel x); auto.
        + intros s [Hs Hl]. assert (Nx : s <> x).
          { intros ->. rewrite Hit, Z.eqb_refl in Hl. simpl in Hl. lia. }
          exists s. destruct (Hsg s Nx) as [S1 S2]. split; [|auto]. split; [lia | congruence].
        + intros s [Hs Hl] N. destruct (Hsg s N) as [S1 S2]. exists s. split; [|auto]. split; [lia | congruence]. }
    rdwr. destruct (Z.eqb_spec (nnxt (it h x)) 0) as [En|Nn].
    + rdwr. cbn [aget alen]. rewrite upd_other by congruence. rewrite Hp3.
      eexists. eexists. split; [reflexivity|].
      apply Hgoal; try reflexivity.
      intros j. cbn [hitem aget]. unfold upd. rewrite En.
      destruct (Z.eqb_spec j p), (Z.eqb_spec j x); try reflexivity. congruence.
    + rdwr. cbn [aget alen]. rewrite Hp3.
      eexists. eexists. split; [reflexivity|].
      apply Hgoal; reflexivity.
  - destruct (Z.eqb_spec (na (it h key)) 0); [congruence|]. rewrite Em, W3. cbn [bind].
    exists None, h. split; [reflexivity|]. split; [exact HI|]. auto.
Qed.

(** Two-way outcome of a search. *)
Definition putspec (h' : htab) (k t : Z) : Prop :=
  Inv kd_edge h' /\ forall q' k' t', holds kd_edge h' q' k' t' <->
     (q' = q /\ k' = k /\ t' = t) \/ (q' <> q /\ holds kd_edge h q' k' t').

Lemma change_spec B F s n' :
  InvBF kd_edge h B F -> F <> [] -> live h s -> kd_edge (it h s) = q ->
  na n' = na (it h s) -> nb n' = nb (it h s) -> nnxt n' = nnxt (it h s) ->
  putspec (set_item h (mkArr (alen (hitem h)) (upd (it h) s n'))) (nk n') (ntag n').
Proof.
  intros I HF L K E1 E2 E3.
  assert (Kn : kd_edge n' = kd_edge (it h s)) by (unfold kd_edge; congruence).
  split.
  - exists B, F. split; [|exact HF]. eapply payload_inv; eauto; reflexivity.
  - rewrite <- K, <- Kn. eapply payload_holds; eauto; reflexivity.
Qed.

Lemma newhead_spec B F n' :
  InvBF kd_edge h B F -> F <> [] -> na (it h key) = 0 -> absent kd_edge h q ->
  na n' = ia -> nb n' = ib -> nnxt n' = 0 ->
  putspec (set_item h (mkArr (alen (hitem h)) (upd (it h) key n'))) (nk n') (ntag n').
Proof.
  intros I HF E0 Habs E1 E2 E3.
  pose proof (i_siz _ _ _ _ I) as Hsiz.
  pose proof (key_range _ h B F I ia ib ltac:(lia) ltac:(lia)) as Hk. fold key in Hk.
  assert (Kn : kd_edge n' = q) by (unfold kd_edge, q; congruence).
  split.
  - exists B, F. split; [|exact HF]. eapply head_inv with (n' := n'); eauto; try reflexivity.
    + lia.
    + rewrite E1, E2. reflexivity.
    + rewrite Kn. exact Habs.
  - rewrite <- Kn. apply (head_holds kd_edge h key n'); auto; try reflexivity; try lia.
    rewrite Kn. exact Habs.
Qed.

(** [append_grow] for edges. *)
Lemma append_edge_spec g B F fill k :
  InvBF kd_edge h B F -> F <> [] -> na (it h key) <> 0 -> absent kd_edge h q ->
  (forall n, na (fill n) = ia /\ nb (fill n) = ib /\ nk (fill n) = k) ->
  exists ok h', append_grow g h (last (key :: B key) key) fill = Ret (ok, h') /\
    ((ok = false /\ g < 1 /\ alen (hitem h') = 0) \/
     (ok = true /\ exists n, putspec h' k (ntag (fill n)))).
Proof.
  intros I HF N0 Habs Hfill.
  pose proof (key_range _ h B F I ia ib ltac:(lia) ltac:(lia)) as Hk. fold key in Hk.
  destruct (append_grow_spec _ kd_edge_ok g h B F key fill ia ib q) as [ok [h' [E C]]]; auto; try lia.
  - intros n. destruct (Hfill n) as [E1 [E2 _]]. repeat split; auto. unfold kd_edge, q. congruence.
  - exists ok, h'. split; [exact E|]. destruct C as [C|[E1 [HI' [n Hn]]]]; [left; exact C|].
    right. split; [exact E1|]. exists n. split; [exact HI'|].
    destruct (Hfill n) as [_ [_ Ek]]. rewrite Ek in Hn. exact Hn.
Qed.

Lemma edge_cases : exists B F,
  InvBF kd_edge h B F /\ F <> [] /\ 0 < hsiz h < hmax h /\ alen (hitem h) = hmax h + 1 /\
  0 <= key < hsiz h /\ ckey (hsiz h) ia ib = Ret key /\ rd (hitem h) key = Ret (it h key) /\
  ( (na (it h key) = 0 /\ eq_edge ia ib (it h key) = false /\ absent kd_edge h q) \/
    (na (it h key) <> 0 /\ eq_edge ia ib (it h key) = true /\ live h key /\ kd_edge (it h key) = q
       /\ holds kd_edge h q (nk (it h key)) (ntag (it h key))) \/
    (na (it h key) <> 0 /\ eq_edge ia ib (it h key) = false /\ exists x,
        live h x /\ kd_edge (it h x) = q /\ 0 <= x < hmax h
        /\ holds kd_edge h q (nk (it h x)) (ntag (it h x))
        /\ walk_b (fuel_of h) (hitem h) (hmax h) (eq_edge ia ib) key = Ret (true, x)
        /\ walk_u (fuel_of h) (hitem h) (eq_edge ia ib) key = Ret (true, x)) \/
    (na (it h key) <> 0 /\ eq_edge ia ib (it h key) = false /\ absent kd_edge h q
        /\ live h (last (key :: B key) key)
        /\ walk_b (fuel_of h) (hitem h) (hmax h) (eq_edge ia ib) key = Ret (false, last (key :: B key) key)
        /\ walk_u (fuel_of h) (hitem h) (eq_edge ia ib) key = Ret (false, last (key :: B key) key)) ).
Proof.
  destruct HI as [B [F [I HF]]].
  pose proof (i_siz _ _ _ _ I) as Hsiz. pose proof (i_len _ _ _ _ I) as Hlen.
  destruct (find_cases _ h B F I (eq_edge ia ib) q ia ib (eq_edge_kd ia ib) (kd_edge_q ia ib)
              ltac:(lia) ltac:(lia)) as [Rk C].
  pose proof (key_range _ h B F I ia ib ltac:(lia) ltac:(lia)) as Hk.
  pose proof (ckey_ok _ h B F I ia ib) as Hck.
  fold key in Rk, C, Hk, Hck.
  exists B, F. repeat (split; [assumption|]).
  destruct C as [[E0 [Em [Habs HB]]]|[[N0 [Em L]]|[[N0 [Em W]]|[N0 [Em [Habs [W1 [W2 W3]]]]]]]].
  - left. auto.
  - right. left. assert (Kq : kd_edge (it h key) = q) by (apply eq_edge_kd; exact Em).
    repeat (split; [assumption|]). rewrite <- Kq. apply holds_slot. exact L.
  - right. right. left. destruct W as [l1 [x [l2 [EB [Hm [Lx [W1 [W2 W3]]]]]]]].
    assert (Kq : kd_edge (it h x) = q) by (apply eq_edge_kd; exact Hm).
    split; [exact N0|]. split; [exact Em|]. exists x. split; [exact Lx|]. split; [exact Kq|].
    split; [apply Lx|]. split; [rewrite <- Kq; apply holds_slot; exact Lx | auto].
  - right. right. right. repeat (split; [assumption|]). split; [eapply last_slot; eauto | auto].
Qed.

Ltac start := destruct edge_cases as [B [F [I [HF [Hsiz [Hlen [Hk [Hck [Rk
  [[E0 [Em Habs]]|[[N0 [Em [L [Kq Hh]]]]|[[N0 [Em [x [Lx [Kq [Hx [Hh [W1 W2]]]]]]]]|[N0 [Em [Habs [Hp [W1 W2]]]]]]]]]]]]]]]]].

Ltac nonz := destruct (Z.eqb_spec (na (it h key)) 0); [congruence|]; cbn [negb].
Ltac unf f := unfold f; fold ia ib;
  match goal with E : ckey _ _ _ = _ |- _ => rewrite E end; cbn [bind];
  match goal with E : rd (hitem h) key = _ |- _ => rewrite E end; cbn [bind].

Lemma hashGet_spec :
  exists v, hashGet h a b = Ret v /\
    ((exists t, holds kd_edge h q v t) \/ (absent kd_edge h q /\ v = 0)).
Proof.
  start; unf hashGet.
  - rewrite E0. cbn [Z.eqb]. eauto.
  - nonz. rewrite Em. eauto.
  - nonz. rewrite Em, W2. rdwr. eauto.
  - nonz. rewrite Em, W2. rdwr. eauto.
Qed.

Lemma update_loop_walk : forall l p fuel,
  path (it h) (nnxt (it h p)) l 0 -> 0 <= p < alen (hitem h) ->
  (forall s, In s l -> 0 < s < alen (hitem h) /\ na (it h s) <> 0) -> na (it h p) <> 0 ->
  (length l < fuel)%nat ->
  eq_edge ia ib (it h p) = false ->
  update_loop (S fuel) (hitem h) ia ib p =
    ('(found, x) <- walk_u fuel (hitem h) (eq_edge ia ib) p ;; Ret (if found : bool then Some x else None)).
Proof.
  induction l as [|x l IH]; intros p fuel Hp Hb' Hin Hn Hf Hne;
    (destruct fuel as [|fuel]; [simpl in Hf; lia|]).
  - cbn [walk_u]. change (update_loop (S (S fuel)) (hitem h) ia ib p) with
      (ph <- rd (hitem h) p ;; if na ph =? 0 then Ret None else if eq_edge ia ib ph then Ret (Some p)
        else if nnxt ph =? 0 then Ret None else update_loop (S fuel) (hitem h) ia ib (nnxt ph)).
    rewrite rd_ok by lia. cbn [bind]. simpl in Hp. rewrite Hp.
    destruct (Z.eqb_spec (na (it h p)) 0); [congruence|]. rewrite Hne. reflexivity.
  - cbn [walk_u]. change (update_loop (S (S fuel)) (hitem h) ia ib p) with
      (ph <- rd (hitem h) p ;; if na ph =? 0 then Ret None else if eq_edge ia ib ph then Ret (Some p)
        else if nnxt ph =? 0 then Ret None else update_loop (S fuel) (hitem h) ia ib (nnxt ph)).
    rewrite rd_ok by lia. cbn [bind]. simpl in Hp. destruct Hp as [E [N Hp]].
    destruct (Hin x (or_introl eq_refl)) as [Hx1 Hx2].
    destruct (Z.eqb_spec (na (it h p)) 0); [congruence|]. rewrite Hne.
    destruct (Z.eqb_spec (nnxt (it h p)) 0); [congruence|].
    rewrite E. rewrite rd_ok by lia. cbn [bind].
    destruct (eq_edge ia ib (it h x)) eqn:Ex.
    + cbn [update_loop bind]. rewrite rd_ok by lia. cbn [bind].
      destruct (Z.eqb_spec (na (it h x)) 0); [congruence|]. rewrite Ex. reflexivity.
    + apply IH; auto; try lia.
      * intros s Hs. apply Hin. right. exact Hs.
      * simpl in Hf. lia.
Qed.

Lemma update_loop_more : forall fuel p r,
  update_loop fuel (hitem h) ia ib p = Ret r -> update_loop (S fuel) (hitem h) ia ib p = Ret r.
Proof.
  induction fuel as [|fuel IH]; intros p r H; [discriminate|].
  cbn [update_loop] in H |- *. destruct (rd (hitem h) p) as [n|]; [|discriminate]. cbn [bind] in *.
  destruct (na n =? 0); [exact H|]. destruct (eq_edge ia ib n); [exact H|]. destruct (nnxt n =? 0); [exact H|].
  apply IH. exact H.
Qed.

Lemma walk_u_S it0 mt f p : walk_u (S f) it0 mt p =
  (ph <- rd it0 p ;; if nnxt ph =? 0 then Ret (false, p)
   else q <- rd it0 (nnxt ph) ;; if mt q then Ret (true, nnxt ph) else walk_u f it0 mt (nnxt ph)).
Proof. reflexivity. Qed.

Lemma walk_u_less mt : forall l p fuel,
  path (it h) (nnxt (it h p)) l 0 -> (length l < fuel)%nat ->
  walk_u (S fuel) (hitem h) mt p = walk_u fuel (hitem h) mt p.
Proof.
  induction l as [|x l IH]; intros p fuel Hp Hf; (destruct fuel as [|fuel]; [simpl in Hf; lia|]);
    rewrite (walk_u_S _ _ (S fuel)), (walk_u_S _ _ fuel); (destruct (rd (hitem h) p) as [n|] eqn:Er; [|reflexivity]); cbn [bind];
    apply rd_inv in Er; destruct Er as [_ ->]; simpl in Hp.
  - rewrite Hp. reflexivity.
  - destruct Hp as [E [N Hp]]. rewrite E. destruct (Z.eqb_spec x 0); [congruence|].
    destruct (rd (hitem h) x) as [n1|]; [|reflexivity]. cbn [bind]. destruct (mt n1); [reflexivity|].
    apply IH; [exact Hp | simpl in Hf; lia].
Qed.

Lemma hashUpdate_spec k :
  exists v h', hashUpdate h a b k = Ret (v, h') /\
    ((absent kd_edge h q /\ v = 0 /\ h' = h) \/
     (v = 1 /\ exists k0 t, holds kd_edge h q k0 t /\ putspec h' k t)).
Proof.
  assert (Hloop : forall B F, InvBF kd_edge h B F -> 0 <= key < hsiz h -> na (it h key) <> 0 -> eq_edge ia ib (it h key) = false ->
     update_loop (fuel_of h) (hitem h) ia ib key =
     ('(found, x) <- walk_u (fuel_of h) (hitem h) (eq_edge ia ib) key ;; Ret (if found : bool then Some x else None))).
  { intros B F I Hk N0 Em. pose proof (i_siz _ _ _ _ I) as Hsiz. pose proof (i_len _ _ _ _ I) as Hlen.
  assert (Hlen2 : (length (B key) < Z.to_nat (alen (hitem h)))%nat).
  { pose proof (path_nodup _ _ _ _ (i_chain _ _ _ _ I key Hk)) as Hnd.
    assert (Z.of_nat (length (B key)) <= Z.max 0 (hmax h)); [|lia].
    apply NoDup_Z_bound; [exact Hnd|]. intros x Hx. destruct (i_over _ _ _ _ I key x Hk Hx). lia. }
    unfold fuel_of. rewrite (walk_u_less _ (B key)); [|apply (i_chain _ _ _ _ I); exact Hk | exact Hlen2].
    apply (update_loop_walk (B key)); auto; try lia.
    - apply (i_chain _ _ _ _ I). exact Hk.
    - intros s Hs. destruct (i_over _ _ _ _ I key s Hk Hs) as [? [? _]]. split; [lia|auto]. }
  start; unfold hashUpdate; fold ia ib; rewrite Hck; cbn [bind].
  - unfold fuel_of. cbn [update_loop]. rewrite Rk. cbn [bind]. rewrite E0. cbn [Z.eqb bind]. eauto 10.
  - unfold fuel_of. cbn [update_loop]. rewrite Rk. cbn [bind]. nonz. rewrite Em. rdwr.
    eexists. eexists. split; [reflexivity|]. right. split; [reflexivity|]. exists (nk (it h key)), (ntag (it h key)).
    split; [exact Hh|]. apply (change_spec B F key (set_k (it h key) k)); auto.
  - rewrite (Hloop B F) by auto. rewrite W2. rdwr.
    eexists. eexists. split; [reflexivity|]. right. split; [reflexivity|]. exists (nk (it h x)), (ntag (it h x)).
    split; [exact Hh|]. apply (change_spec B F x (set_k (it h x) k)); auto.
  - rewrite (Hloop B F) by auto. rewrite W2. cbn [bind]. eauto 10.
Qed.

Lemma hashEdgeTag_spec g tag :
  exists v h', hashEdgeTag g h a b tag = Ret (v, h') /\
    ((absent kd_edge h q /\ g < 1 /\ v = 0 /\ alen (hitem h') = 0) \/
     (absent kd_edge h q /\ v = tag /\ exists t, putspec h' tag t) \/
     (exists k0 t, holds kd_edge h q k0 t /\ v = Z.lor k0 tag /\ putspec h' (Z.lor k0 tag) t)).
Proof.
  start; unf hashEdgeTag.
  - rewrite E0. cbn [Z.eqb negb]. rdwr.
    eexists. eexists. split; [reflexivity|]. right. left. split; [exact Habs|]. split; [reflexivity|].
    exists (ntag (it h key)). apply (newhead_spec B F (mkNode ia ib (ns (it h key)) tag (ntag (it h key)) 0)); auto.
  - nonz. rewrite Em. rdwr.
    eexists. eexists. split; [reflexivity|]. right. right. eexists. eexists. split; [exact Hh|]. split; [reflexivity|].
    apply (change_spec B F key (set_k (it h key) (Z.lor (nk (it h key)) tag))); auto.
  - nonz. rewrite Em, W1. rdwr.
    eexists. eexists. split; [reflexivity|]. right. right. eexists. eexists. split; [exact Hh|]. split; [reflexivity|].
    apply (change_spec B F x (set_k (it h x) (Z.lor (nk (it h x)) tag))); auto.
  - nonz. rewrite Em, W1. cbn [bind].
    destruct (append_edge_spec g B F (fun n => mkNode ia ib (ns n) tag (ntag n) (nnxt n)) tag) as [ok [h' [E C]]]; auto.
    rewrite E. cbn [bind]. destruct C as [[-> [Hg Hz]]|[-> [m Hn]]].
    + eexists. eexists. split; [reflexivity|]. left. auto.
    + eexists. eexists. split; [reflexivity|]. right. left. split; [exact Habs|]. split; [reflexivity|]. eauto.
Qed.

(** Also the tag that ends up stored; used for the geometric table. *)
Lemma hEdge_spec g ref tag :
  exists v h', hEdge g h a b ref tag = Ret (v, h') /\
    ((absent kd_edge h q /\ g < 1 /\ v = 0 /\ alen (hitem h') = 0) \/
     (absent kd_edge h q /\ v = 1 /\ putspec h' ref tag) \/
     (exists k0 t0, holds kd_edge h q k0 t0 /\ v = 1 /\ h' = h)).
Proof.
  start; unfold hEdge; (destruct (Z.eqb_spec (hsiz h) 0); [lia|]); cbn [negb c_assert bind];
    fold ia ib; rewrite Hck; cbn [bind]; rewrite Rk; cbn [bind].
  - rewrite Em, E0. cbn [Z.eqb negb]. rdwr.
    eexists. eexists. split; [reflexivity|]. right. left. split; [exact Habs|]. split; [reflexivity|].
    apply (newhead_spec B F (mkNode ia ib (ns (it h key)) ref tag 0)); auto.
  - rewrite Em. eexists. eexists. split; [reflexivity|]. right. right. eauto 10.
  - rewrite Em. nonz. rewrite W2. cbn [bind]. eexists. eexists. split; [reflexivity|]. right. right. eauto 10.
  - rewrite Em. nonz. rewrite W2. cbn [bind].
    destruct (append_edge_spec g B F (fun n => mkNode ia ib (ns n) ref tag (nnxt n)) ref) as [ok [h' [E C]]]; auto.
    rewrite E. cbn [bind]. destruct C as [[-> [Hg Hz]]|[-> [m Hn]]].
    + eexists. eexists. split; [reflexivity|]. left. auto.
    + eexists. eexists. split; [reflexivity|]. right. left. split; [exact Habs|]. split; [reflexivity|]. exact Hn.
Qed.

Lemma hTag_spec ref tag :
  exists v h', hTag h a b ref tag = Ret (v, h') /\
    ((absent kd_edge h q /\ v = 0 /\ h' = h) \/
     (v = 1 /\ exists k0 t0, holds kd_edge h q k0 t0 /\
        putspec h' (if ref =? 0 then k0 else ref) (Z.lor t0 tag))).
Proof.
  assert (T : forall n, nk (tag_node n ref tag) = (if ref =? 0 then nk n else ref)
     /\ ntag (tag_node n ref tag) = Z.lor (ntag n) tag /\ na (tag_node n ref tag) = na n
     /\ nb (tag_node n ref tag) = nb n /\ nnxt (tag_node n ref tag) = nnxt n).
  { intros n. unfold tag_node. destruct (ref =? 0); auto. }
  start; unf hTag.
  - rewrite E0. cbn [Z.eqb]. eauto 10.
  - nonz. rewrite Em. rdwr. eexists. eexists. split; [reflexivity|]. right. split; [reflexivity|].
    eexists. eexists. split; [exact Hh|]. destruct (T (it h key)) as [<- [<- [T1 [T2 T3]]]].
    apply (change_spec B F key); auto.
  - nonz. rewrite Em, W2. rdwr. eexists. eexists. split; [reflexivity|]. right. split; [reflexivity|].
    eexists. eexists. split; [exact Hh|]. destruct (T (it h x)) as [<- [<- [T1 [T2 T3]]]].
    apply (change_spec B F x); auto.
  - nonz. rewrite Em, W2. cbn [bind]. eauto 10.
Qed.

Lemma hGet_spec :
  exists v, hGet h a b = Ret v /\
    ((exists k t, holds kd_edge h q k t /\ v = (1, k, t)) \/ (absent kd_edge h q /\ v = (0, 0, 0))).
Proof.
  start; unfold hGet; (destruct (Z.eqb_spec (hsiz h) 0); [lia|]); cbn [negb c_assert bind];
    fold ia ib; rewrite Hck; cbn [bind]; rewrite Rk; cbn [bind].
  - rewrite E0. cbn [Z.eqb]. eauto.
  - nonz. rewrite Em. eauto 10.
  - nonz. rewrite Em, W2. rdwr. eauto 10.
  - nonz. rewrite Em, W2. rdwr. eauto.
Qed.

Lemma hashEdge_spec g k :
  exists v h', hashEdge g h a b k = Ret (v, h') /\
    ((absent kd_edge h q /\ g < 1 /\ v = 0 /\ alen (hitem h') = 0) \/
     (absent kd_edge h q /\ v = 2 /\ exists t, putspec h' k t) \/
     (exists k0 t0, holds kd_edge h q k0 t0 /\ v = 1 /\ h' = h)).
Proof.
  start; unf hashEdge.
  - rewrite Em, E0. cbn [Z.eqb negb]. rdwr.
    eexists. eexists. split; [reflexivity|]. right. left. split; [exact Habs|]. split; [reflexivity|].
    exists (ntag (it h key)). apply (newhead_spec B F (mkNode ia ib (ns (it h key)) k (ntag (it h key)) 0)); auto.
  - rewrite Em. eexists. eexists. split; [reflexivity|]. right. right. eauto 10.
  - rewrite Em. nonz. rewrite W1. cbn [bind]. eexists. eexists. split; [reflexivity|]. right. right. eauto 10.
  - rewrite Em. nonz. rewrite W1. cbn [bind]. clear W1 W2.
    set (p := last (key :: B key) key) in *. destruct Hp as [Hp Hpl].
    destruct F as [|f F']; [congruence|]. clear HF.
    destruct (i_freein _ _ _ _ I f (or_introl eq_refl)) as [Hf Hf0].
    pose proof (i_free _ _ _ _ I) as Hfree. cbn [path] in Hfree. destruct Hfree as [Hnx [Nnx Hpath]].
    assert (Npf : p <> f) by (intros E; rewrite E in Hpl; congruence).
    rewrite Hnx. rdwr. cbn [aget alen hitem set_item hnxt hmax].
    destruct (Z.ltb_spec f (hmax h - 1)) as [Hlt|Hge]; cbn [negb].
    + rdwr. rewrite Hnx. rdwr. cbn [aget alen]. rewrite (upd_other (it h) (set_nxt (it h p) f)) by congruence.
      eexists. eexists. split; [reflexivity|]. right. left. split; [exact Habs|]. split; [reflexivity|].
      exists (ntag (it h f)).
      set (h' := mkH _ _ _ _). set (n' := mkNode ia ib (ns (it h f)) k (ntag (it h f)) 0).
      assert (Hit : forall j, it h' j = if j =? f then n' else if j =? p then set_nxt (it h p) f else it h j).
      { intros j. reflexivity. }
      split.
      * exists (upd B key (B key ++ [f])), F'. split.
        -- apply (append_inv _ kd_edge_ok h B f F' key p n' h'); auto; try reflexivity. simpl. lia.
        -- intros ->. destruct (i_last _ _ _ _ I) as [E|[F0 E]]; [discriminate|].
           destruct F0 as [|y F0]; inversion E; [lia|]. destruct F0; discriminate.
      * intros q' k' t'. apply (append_holds _ kd_edge_ok h f p n' h'); auto; try lia. simpl. lia.
    + assert (Ef : f = hmax h - 1) by lia.
      assert (HF' : F' = []).
      { destruct (i_last _ _ _ _ I) as [E|[F0 E]]; [discriminate|].
        pose proof (path_nodup _ _ _ _ (i_free _ _ _ _ I)) as Hnd. rewrite E in Hnd.
        destruct F0 as [|y F0]; inversion E; [reflexivity|]. subst y.
        simpl in Hnd. inversion Hnd as [|? ? Hni _]. exfalso. apply Hni. apply in_or_app. right. left. lia. }
      subst F'. cbn [path] in Hpath.
      unfold grow_items. destruct (Z.ltb_spec g 1) as [Hg|Hg].
      * eexists. eexists. split; [reflexivity|]. left. auto.
      * cbn [hsiz hmax hnxt hitem set_item].
        set (it1 := mkArr (alen (hitem h)) (upd (it h) p (set_nxt (it h p) f))).
        set (it2 := arecalloc it1 (hmax h + g + 1) node0).
        rewrite Hnx. rewrite rd_ok by (cbn [it2 arecalloc alen]; lia). cbn [bind].
        assert (E2 : aget it2 f = it h f).
        { unfold it2, arecalloc, it1. cbn [aget alen]. destruct (Z.ltb_spec f (alen (hitem h))); [|lia].
          apply upd_other. congruence. }
        rewrite E2, Hpath.
        destruct (init_links_spec (hmax h) (hmax h + g) it2) as [it3 [E3 [Hl3 Hs3]]]; [lia | cbn [it2 arecalloc alen]; lia |].
        rewrite E3. cbn [bind].
        assert (Hl3' : alen it3 = hmax h + g + 1) by (rewrite Hl3; reflexivity).
        rewrite rd_ok by lia. cbn [bind]. rewrite wr_ok by lia. cbn [bind].
        assert (E4 : aget it3 f = it h f).
        { rewrite Hs3, E2. destruct (Z.leb_spec (hmax h) f); [lia|]. reflexivity. }
        rewrite E4, Hpath.
        eexists. eexists. split; [reflexivity|]. right. left. split; [exact Habs|]. split; [reflexivity|].
        exists (ntag (it h f)).
        (* virtual state: growth before the insertion *)
        set (hg := mkH (hsiz h) (hmax h + g) (hnxt h)
               (mkArr (hmax h + g + 1) (fun j =>
                 if (hmax h <=? j) && (j <? hmax h + g) then set_nxt (if j <=? hmax h then it h j else node0) (j + 1)
                 else if j <=? hmax h then it h j else node0))).
        assert (Ig : InvBF kd_edge hg B ([f] ++ seqZ (hmax h) (hmax h + g))).
        { eapply grow_inv; eauto; try reflexivity. }
        destruct (grow_holds kd_edge h B [f] g hg I) as [GL [GE GH]]; [lia | reflexivity | reflexivity |].
        assert (Hgo : forall j, 0 <= j < hmax h -> it hg j = it h j).
        { intros j Hj. unfold hg. cbn [hitem aget]. destruct (Z.leb_spec (hmax h) j); [lia|]. cbn [andb].
          destruct (Z.leb_spec j (hmax h)); [reflexivity | lia]. }
        set (h' := mkH (hsiz h) (hmax h + g) (hmax h) _).
        set (n' := mkNode ia ib (ns (it h f)) k (ntag (it h f)) 0).
        assert (Hit : forall j, it h' j = if j =? f then n' else if j =? p then set_nxt (it hg p) f else it hg j).
        { intros j. unfold h'. cbn [hitem aget]. unfold upd. destruct (Z.eqb_spec j f); [reflexivity|].
          rewrite Hs3. unfold it2, it1, arecalloc. cbn [aget alen].
          destruct (Z.eqb_spec j p) as [->|Np].
          - destruct (Z.leb_spec (hmax h) p); [lia|]. cbn [andb].
            destruct (Z.ltb_spec p (alen (hitem h))); [|lia].
            rewrite upd_same. rewrite Hgo by lia. reflexivity.
          - unfold hg. cbn [hitem aget]. rewrite upd_other by congruence. rewrite Hlen.
            replace (j <=? hmax h) with (j <? hmax h + 1); [reflexivity|].
            destruct (Z.leb_spec j (hmax h)), (Z.ltb_spec j (hmax h + 1)); reflexivity || lia. }
        assert (Hag : absent kd_edge hg q).
        { intros s L. pose proof (proj1 (GL s) L) as L'. rewrite GE by exact L'. apply Habs. exact L'. }
        split.
        -- exists (upd B key (B key ++ [f])), (seqZ (hmax h) (hmax h + g)). split.
           ++ apply (append_inv _ kd_edge_ok hg B f (seqZ (hmax h) (hmax h + g)) key p n' h'); auto; try reflexivity.
              ** rewrite Hgo by lia. exact N0.
              ** rewrite Hgo by lia. symmetry. exact Hpath.
              ** simpl. lia.
           ++ destruct (seqZ_last (hmax h) (hmax h + g)) as [l El]; [lia|]. rewrite El. destruct l; discriminate.
        -- intros q' k' t'. rewrite (append_holds _ kd_edge_ok hg f p n' h'); auto; try (simpl; lia).
           ++ rewrite GH. reflexivity.
           ++ rewrite Hgo by lia. exact Hf0.
Qed.

End Edge.

(** ** Faces *)

Lemma eq_face_kd a b c n : eq_face a b c n = true <-> kd_face n = (a, b, c).
Proof.
  unfold eq_face, kd_face. rewrite !andb_true_iff, !Z.eqb_eq. split.
  - intros [[-> ->] ->]. reflexivity.
  - intros E. inversion E. auto.
Qed.

Lemma kd_face_q a b c n : kd_face n = (a, b, c) -> na n = a /\ nb n = b.
Proof. intros E. inversion E. auto. Qed.

Section Face.
Variables (h : htab) (a b c : Z).
Hypothesis HI : Inv kd_face h.
Hypothesis Ha : 0 < a.
Hypothesis Hb : 0 < b.
Hypothesis Hc : 0 < c.

Let mi := min3 a b c.
Let ma := max3 a b c.
Let su := a + b + c.
Let q : Z * Z * Z := (mi, ma, su).
Let key := hkey (hsiz h) mi ma.

Lemma face_cases : exists B F,
  InvBF kd_face h B F /\ F <> [] /\ 0 < hsiz h < hmax h /\ alen (hitem h) = hmax h + 1 /\
  0 <= key < hsiz h /\ ckey (hsiz h) mi ma = Ret key /\ rd (hitem h) key = Ret (it h key) /\
  ( (na (it h key) = 0 /\ eq_face mi ma su (it h key) = false /\ absent kd_face h q) \/
    (na (it h key) <> 0 /\ eq_face mi ma su (it h key) = true /\
       holds kd_face h q (nk (it h key)) (ntag (it h key))) \/
    (na (it h key) <> 0 /\ eq_face mi ma su (it h key) = false /\ exists x, 0 <= x < hmax h
        /\ holds kd_face h q (nk (it h x)) (ntag (it h x))
        /\ walk_b (fuel_of h) (hitem h) (hmax h) (eq_face mi ma su) key = Ret (true, x)
        /\ walk_u (fuel_of h) (hitem h) (eq_face mi ma su) key = Ret (true, x)) \/
    (na (it h key) <> 0 /\ eq_face mi ma su (it h key) = false /\ absent kd_face h q
        /\ walk_b (fuel_of h) (hitem h) (hmax h) (eq_face mi ma su) key = Ret (false, last (key :: B key) key)
        /\ walk_u (fuel_of h) (hitem h) (eq_face mi ma su) key = Ret (false, last (key :: B key) key)) ).
Proof.
  destruct HI as [B [F [I HF]]].
  pose proof (i_siz _ _ _ _ I) as Hsiz. pose proof (i_len _ _ _ _ I) as Hlen.
  assert (Hm : 0 < mi /\ 0 < ma) by (unfold mi, ma, min3, max3; lia). destruct Hm as [Hmi Hma].
  destruct (find_cases _ h B F I (eq_face mi ma su) q mi ma (eq_face_kd mi ma su) (kd_face_q mi ma su) Hmi Hma) as [Rk C].
  pose proof (key_range _ h B F I mi ma Hmi Hma) as Hk.
  pose proof (ckey_ok _ h B F I mi ma) as Hck.
  fold key in Rk, C, Hk, Hck.
  exists B, F. repeat (split; [assumption|]).
  destruct C as [[E0 [Em [Habs HB]]]|[[N0 [Em L]]|[[N0 [Em W]]|[N0 [Em [Habs [W1 [W2 W3]]]]]]]].
  - left. auto.
  - right. left. assert (Kq : kd_face (it h key) = q) by (apply eq_face_kd; exact Em).
    repeat (split; [assumption|]). rewrite <- Kq. apply holds_slot. exact L.
  - right. right. left. destruct W as [l1 [x [l2 [EB [Hm [Lx [W1 [W2 W3]]]]]]]].
    assert (Kq : kd_face (it h x) = q) by (apply eq_face_kd; exact Hm).
    split; [exact N0|]. split; [exact Em|]. exists x.
    split; [apply Lx|]. split; [rewrite <- Kq; apply holds_slot; exact Lx | auto].
  - right. right. right. repeat (split; [assumption|]). auto.
Qed.

Lemma hashGetFace_spec :
  exists v, hashGetFace h a b c = Ret v /\
    ((exists t, holds kd_face h q v t) \/ (absent kd_face h q /\ v = 0)).
Proof.
  destruct face_cases as [B [F [I [HF [Hsiz [Hlen [Hk [Hck [Rk
  [[E0 [Em Habs]]|[[N0 [Em Hh]]|[[N0 [Em [x [Hx [Hh [W1 W2]]]]]]|[N0 [Em [Habs [W1 W2]]]]]]]]]]]]]]]];
  unfold hashGetFace; fold mi ma su; rewrite Hck; cbn [bind]; rewrite Rk; cbn [bind].
  - rewrite E0. cbn [Z.eqb negb]. eauto.
  - destruct (Z.eqb_spec (na (it h key)) 0); [congruence|]. cbn [negb]. rewrite Em. eauto.
  - destruct (Z.eqb_spec (na (it h key)) 0); [congruence|]. cbn [negb]. rewrite Em, W2. rdwr. eauto.
  - destruct (Z.eqb_spec (na (it h key)) 0); [congruence|]. cbn [negb]. rewrite Em, W2. rdwr. eauto.
Qed.

Lemma hashFace_spec g k :
  exists v h', hashFace g h a b c k = Ret (v, h') /\
    ((absent kd_face h q /\ g < 1 /\ v = 0 /\ alen (hitem h') = 0) \/
     (absent kd_face h q /\ v = -1 /\ Inv kd_face h' /\ exists t, forall q' k' t', holds kd_face h' q' k' t' <->
        (q' = q /\ k' = k /\ t' = t) \/ (q' <> q /\ holds kd_face h q' k' t')) \/
     (exists t0, holds kd_face h q v t0 /\ h' = h)).
Proof.
  assert (Hm : 0 < mi /\ 0 < ma) by (unfold mi, ma, min3, max3; lia). destruct Hm as [Hmi Hma].
  destruct face_cases as [B [F [I [HF [Hsiz [Hlen [Hk [Hck [Rk
  [[E0 [Em Habs]]|[[N0 [Em Hh]]|[[N0 [Em [x [Hx [Hh [W1 W2]]]]]]|[N0 [Em [Habs [W1 W2]]]]]]]]]]]]]]]];
  unfold hashFace; fold mi ma su; rewrite Hck; cbn [bind]; rewrite Rk; cbn [bind].
  - rewrite E0. cbn [Z.eqb negb]. rdwr.
    eexists. eexists. split; [reflexivity|]. right. left. split; [exact Habs|]. split; [reflexivity|].
    set (n' := mkNode mi ma su k (ntag (it h key)) 0).
    split.
    + exists B, F. split; [|exact HF]. eapply head_inv with (n' := n'); eauto; try reflexivity.
    + exists (ntag (it h key)). apply (head_holds kd_face h key n'); auto; try reflexivity. lia.
  - destruct (Z.eqb_spec (na (it h key)) 0); [congruence|]. cbn [negb]. rewrite Em.
    eexists. eexists. split; [reflexivity|]. right. right. eauto.
  - destruct (Z.eqb_spec (na (it h key)) 0); [congruence|]. cbn [negb]. rewrite Em, W1. rdwr.
    eexists. eexists. split; [reflexivity|]. right. right. eauto.
  - destruct (Z.eqb_spec (na (it h key)) 0); [congruence|]. cbn [negb]. rewrite Em, W1. cbn [bind].
    destruct (append_grow_spec _ kd_face_ok g h B F key (fun n => mkNode mi ma su k (ntag n) (nnxt n)) mi ma q)
      as [ok [h' [E C]]]; auto.
    rewrite E. cbn [bind]. destruct C as [[-> [Hg Hz]]|[-> [HI' [m Hn]]]].
    + eexists. eexists. split; [reflexivity|]. left. auto.
    + eexists. eexists. split; [reflexivity|]. right. left. split; [exact Habs|]. split; [reflexivity|].
      split; [exact HI'|]. exists (ntag m). exact Hn.
Qed.

End Face.

(** ** Refinement of the maps, one call *)

Definition ekey (x y : Z) : Z * Z * Z := (Z.min x y, Z.max x y, 0).
Definition fkey (x y z : Z) : Z * Z * Z := (min3 x y z, max3 x y z, x + y + z).

Lemma same_edge_key a b x y : same_edge a b x y = true <-> ekey x y = ekey a b.
Proof.
  unfold same_edge, ekey. rewrite orb_true_iff, !andb_true_iff, !Z.eqb_eq. split.
  - intros [[-> ->]|[-> ->]]; [reflexivity|]. f_equal; f_equal; lia.
  - intros E. inversion E. lia.
Qed.

Definition perm3 (a b c x y z : Z) : Prop :=
  (a = x /\ b = y /\ c = z) \/ (a = x /\ b = z /\ c = y) \/ (a = y /\ b = x /\ c = z) \/
  (a = y /\ b = z /\ c = x) \/ (a = z /\ b = x /\ c = y) \/ (a = z /\ b = y /\ c = x).

Lemma same_face_perm a b c x y z : same_face a b c x y z = true <-> perm3 a b c x y z.
Proof. unfold same_face, perm3. rewrite !orb_true_iff, !andb_true_iff, !Z.eqb_eq. tauto. Qed.

Lemma perm3_sorted a b c : perm3 a b c (min3 a b c) (a + b + c - min3 a b c - max3 a b c) (max3 a b c).
Proof.
  unfold perm3, min3, max3.
  destruct (Z_le_gt_dec a b), (Z_le_gt_dec a c), (Z_le_gt_dec b c);
  first [ left; repeat split; lia | right; left; repeat split; lia | right; right; left; repeat split; lia
        | right; right; right; left; repeat split; lia | right; right; right; right; left; repeat split; lia
        | right; right; right; right; right; repeat split; lia ].
Qed.

Lemma same_face_key a b c x y z : same_face a b c x y z = true <-> fkey x y z = fkey a b c.
Proof.
  rewrite same_face_perm. unfold fkey. split.
  - unfold perm3, min3, max3.
    intros [[-> [-> ->]]|[[-> [-> ->]]|[[-> [-> ->]]|[[-> [-> ->]]|[[-> [-> ->]]|[-> [-> ->]]]]]]];
      rewrite !pair_equal_spec; repeat split; lia.
  - intros E. inversion E as [[E1 E2 E3]].
    pose proof (perm3_sorted a b c) as P. pose proof (perm3_sorted x y z) as Q.
    rewrite E1, E2, E3 in Q. revert P Q.
    generalize (min3 a b c), (a + b + c - min3 a b c - max3 a b c), (max3 a b c). clear.
    intros m n p P Q. unfold perm3 in *.
    destruct P as [[-> [-> ->]]|[[-> [-> ->]]|[[-> [-> ->]]|[[-> [-> ->]]|[[-> [-> ->]]|[-> [-> ->]]]]]]];
    destruct Q as [[-> [-> ->]]|[[-> [-> ->]]|[[-> [-> ->]]|[[-> [-> ->]]|[[-> [-> ->]]|[-> [-> ->]]]]]]]; tauto.
Qed.

(** Abstraction relation: same entries. *)
Definition erep (h : htab) (M : emap) : Prop :=
  Inv kd_edge h /\ forall x y k, M x y = Some k <-> exists t, holds kd_edge h (ekey x y) k t.
Definition grep (h : htab) (M : gmap) : Prop :=
  Inv kd_edge h /\ forall x y k t, M x y = Some (k, t) <-> holds kd_edge h (ekey x y) k t.
Definition frep (h : htab) (M : fmap) : Prop :=
  Inv kd_face h /\ forall x y z k, M x y z = Some k <-> exists t, holds kd_face h (fkey x y z) k t.

Lemma none_absent_e h M a b : erep h M -> absent kd_edge h (ekey a b) -> M a b = None.
Proof.
  intros [_ H] A. destruct (M a b) as [k|] eqn:E; [|reflexivity].
  apply H in E. destruct E as [t E]. exfalso. exact (absent_holds _ _ _ _ _ A E).
Qed.
Lemma none_absent_g h M a b : grep h M -> absent kd_edge h (ekey a b) -> M a b = None.
Proof.
  intros [_ H] A. destruct (M a b) as [[k t]|] eqn:E; [|reflexivity].
  apply H in E. exfalso. exact (absent_holds _ _ _ _ _ A E).
Qed.
Lemma none_absent_f h M a b c : frep h M -> absent kd_face h (fkey a b c) -> M a b c = None.
Proof.
  intros [_ H] A. destruct (M a b c) as [k|] eqn:E; [|reflexivity].
  apply H in E. destruct E as [t E]. exfalso. exact (absent_holds _ _ _ _ _ A E).
Qed.

Lemma erep_put h M h' a b k t :
  erep h M -> putspec h a b h' k t -> erep h' (eput M a b k).
Proof.
  intros [HI H] [HI' P]. split; [exact HI'|]. intros x y k'. unfold eput.
  destruct (same_edge a b x y) eqn:E.
  - apply same_edge_key in E. split.
    + intros E1. inversion E1. subst k'. exists t. apply P. left. auto.
    + intros [t' Ht]. apply P in Ht. destruct Ht as [[_ [-> _]]|[N _]]; [reflexivity|]. contradiction.
  - assert (N : ekey x y <> ekey a b) by (intros E2; apply same_edge_key in E2; congruence).
    rewrite H. split; intros [t' Ht]; exists t'.
    + apply P. right. auto.
    + apply P in Ht. destruct Ht as [[E1 _]|[_ Ht]]; [contradiction | exact Ht].
Qed.

Lemma grep_put h M h' a b k t :
  grep h M -> putspec h a b h' k t -> grep h' (gput M a b (k, t)).
Proof.
  intros [HI H] [HI' P]. split; [exact HI'|]. intros x y k' t'. unfold gput.
  destruct (same_edge a b x y) eqn:E.
  - apply same_edge_key in E. rewrite P. split.
    + intros E1. inversion E1. left. auto.
    + intros [[_ [-> ->]]|[N _]]; [reflexivity|]. contradiction.
  - assert (N : ekey x y <> ekey a b) by (intros E2; apply same_edge_key in E2; congruence).
    rewrite H, P. split; [right; auto|]. intros [[E1 _]|[_ Ht]]; [contradiction | exact Ht].
Qed.

Lemma erep_del h M h' a b :
  erep h M -> Inv kd_edge h' ->
  (forall q' k t, holds kd_edge h' q' k t <-> (q' <> ekey a b /\ holds kd_edge h q' k t)) ->
  erep h' (edel M a b).
Proof.
  intros [HI H] HI' P. split; [exact HI'|]. intros x y k. unfold edel.
  destruct (same_edge a b x y) eqn:E.
  - apply same_edge_key in E. split; [discriminate|]. intros [t Ht]. apply P in Ht. destruct Ht. contradiction.
  - assert (N : ekey x y <> ekey a b) by (intros E2; apply same_edge_key in E2; congruence).
    rewrite H. split; intros [t Ht]; exists t; [apply P; auto | apply P in Ht; apply Ht].
Qed.

Lemma grep_del h M h' a b :
  grep h M -> Inv kd_edge h' ->
  (forall q' k t, holds kd_edge h' q' k t <-> (q' <> ekey a b /\ holds kd_edge h q' k t)) ->
  grep h' (gdel M a b).
Proof.
  intros [HI H] HI' P. split; [exact HI'|]. intros x y k t. unfold gdel.
  destruct (same_edge a b x y) eqn:E.
  - apply same_edge_key in E. split; [discriminate|]. intros Ht. apply P in Ht. destruct Ht. contradiction.
  - assert (N : ekey x y <> ekey a b) by (intros E2; apply same_edge_key in E2; congruence).
    rewrite H, P. tauto.
Qed.

(** One call of the edge table interface. *)
Definition estep (h : htab) (o : eop) : outcome (Z * htab) :=
  match o with
  | EIns a b k g => hashEdge g h a b k
  | EUpd a b k => hashUpdate h a b k
  | ETag a b t g => hashEdgeTag g h a b t
  | EGet a b => v <- hashGet h a b ;; Ret (v, h)
  | EPop a b => hashPop h a b
  end.

Definition gstep (h : htab) (o : gop) : outcome ((Z * Z * Z) * htab) :=
  match o with
  | GIns a b r t g => '(v, h') <- hEdge g h a b r t ;; Ret ((v, 0, 0), h')
  | GTag a b r t => '(v, h') <- hTag h a b r t ;; Ret ((v, 0, 0), h')
  | GGet a b => v <- hGet h a b ;; Ret (v, h)
  | GPop a b => hPop h a b
  end.

Definition fstep (h : htab) (o : fop) : outcome (Z * htab) :=
  match o with
  | FIns a b c k g => hashFace g h a b c k
  | FGet a b c => v <- hashGetFace h a b c ;; Ret (v, h)
  end.

Lemma estep_ok h M o :
  erep h M -> eop_wf o ->
  exists v h', estep h o = Ret (v, h') /\
    ((v = fst (espec M o) /\ erep h' (snd (espec M o))) \/
     (erefused M o /\ v = 0 /\ alen (hitem h') = 0)).
Proof.
  intros R W. pose proof (proj1 R) as HI. pose proof (proj2 R) as HM.
  destruct o as [a b k g|a b k|a b t g|a b|a b]; simpl in W; destruct W as [Ha Hb]; cbn [estep espec erefused].
  - destruct (hashEdge_spec h a b HI Ha Hb g k) as [v [h' [E C]]]. exists v, h'. split; [exact E|].
    destruct C as [[A [Hg [-> Hz]]]|[[A [-> [t P]]]|[k0 [t0 [P [-> ->]]]]]].
    + right. rewrite (none_absent_e h M a b R A). auto.
    + left. rewrite (none_absent_e h M a b R A). split; [reflexivity|]. simpl. eapply erep_put; eauto.
    + left. assert (Em : M a b = Some k0) by (apply HM; eauto). rewrite Em. auto.
  - destruct (hashUpdate_spec h a b HI Ha Hb k) as [v [h' [E C]]]. exists v, h'. split; [exact E|]. left.
    destruct C as [[A [-> ->]]|[-> [k0 [t [P1 P]]]]].
    + rewrite (none_absent_e h M a b R A). auto.
    + assert (Em : M a b = Some k0) by (apply HM; eauto). rewrite Em. split; [reflexivity|]. simpl. eapply erep_put; eauto.
  - destruct (hashEdgeTag_spec h a b HI Ha Hb g t) as [v [h' [E C]]]. exists v, h'. split; [exact E|].
    destruct C as [[A [Hg [-> Hz]]]|[[A [-> [t0 P]]]|[k0 [t0 [P1 [-> P]]]]]].
    + right. rewrite (none_absent_e h M a b R A). auto.
    + left. rewrite (none_absent_e h M a b R A). split; [reflexivity|]. simpl. eapply erep_put; eauto.
    + left. assert (Em : M a b = Some k0) by (apply HM; eauto). rewrite Em. split; [reflexivity|]. simpl. eapply erep_put; eauto.
  - destruct (hashGet_spec h a b HI Ha Hb) as [v [E C]]. rewrite E. cbn [bind].
    exists v, h. split; [reflexivity|]. left. destruct C as [[t P]|[A ->]].
    + assert (Em : M a b = Some v) by (apply HM; eauto). rewrite Em. auto.
    + rewrite (none_absent_e h M a b R A). auto.
  - destruct (pop_item_spec h a b HI Ha Hb) as [r [h' [E [HI' C]]]]. unfold hashPop. rewrite E. cbn [bind].
    eexists. eexists. split; [reflexivity|]. left. destruct r as [n|].
    + destruct C as [P1 P2]. assert (Em : M a b = Some (nk n)) by (apply HM; eauto). rewrite Em.
      split; [reflexivity|]. simpl. eapply erep_del; eauto.
    + destruct C as [-> A]. rewrite (none_absent_e h M a b R A). auto.
Qed.

Lemma gstep_ok h M o :
  grep h M -> gop_wf o ->
  exists v h', gstep h o = Ret (v, h') /\
    ((v = fst (gspec M o) /\ grep h' (snd (gspec M o))) \/
     (grefused M o /\ v = (0, 0, 0) /\ alen (hitem h') = 0)).
Proof.
  intros R W. pose proof (proj1 R) as HI. pose proof (proj2 R) as HM.
  destruct o as [a b r t g|a b r t|a b|a b]; simpl in W; destruct W as [Ha Hb]; cbn [gstep gspec grefused].
  - destruct (hEdge_spec h a b HI Ha Hb g r t) as [v [h' [E C]]]. rewrite E. cbn [bind].
    eexists. eexists. split; [reflexivity|].
    destruct C as [[A [Hg [-> Hz]]]|[[A [-> P]]|[k0 [t0 [P [-> ->]]]]]].
    + right. rewrite (none_absent_g h M a b R A). auto.
    + left. rewrite (none_absent_g h M a b R A). split; [reflexivity|]. simpl. eapply grep_put; eauto.
    + left. assert (Em : M a b = Some (k0, t0)) by (apply HM; eauto). rewrite Em. auto.
  - destruct (hTag_spec h a b HI Ha Hb r t) as [v [h' [E C]]]. rewrite E. cbn [bind].
    eexists. eexists. split; [reflexivity|]. left.
    destruct C as [[A [-> ->]]|[-> [k0 [t0 [P1 P]]]]].
    + rewrite (none_absent_g h M a b R A). auto.
    + assert (Em : M a b = Some (k0, t0)) by (apply HM; eauto). rewrite Em. split; [reflexivity|]. simpl. eapply grep_put; eauto.
  - destruct (hGet_spec h a b HI Ha Hb) as [v [E C]]. rewrite E. cbn [bind].
    exists v, h. split; [reflexivity|]. left. destruct C as [[k [t [P ->]]]|[A ->]].
    + assert (Em : M a b = Some (k, t)) by (apply HM; eauto). rewrite Em. auto.
    + rewrite (none_absent_g h M a b R A). auto.
  - pose proof HI as [B [F [I _]]]. pose proof (i_siz _ _ _ _ I).
    unfold hPop. destruct (Z.eqb_spec (hsiz h) 0); [lia|]. cbn [negb c_assert bind].
    destruct (pop_item_spec h a b HI Ha Hb) as [r [h' [E [HI' C]]]]. rewrite E. cbn [bind].
    eexists. eexists. split; [reflexivity|]. left. destruct r as [m|].
    + destruct C as [P1 P2]. assert (Em : M a b = Some (nk m, ntag m)) by (apply HM; eauto). rewrite Em.
      split; [reflexivity|]. simpl. eapply grep_del; eauto.
    + destruct C as [-> A]. rewrite (none_absent_g h M a b R A). auto.
Qed.

Lemma fstep_ok h M o :
  frep h M -> fop_wf o ->
  exists v h', fstep h o = Ret (v, h') /\
    ((v = fst (fspec M o) /\ frep h' (snd (fspec M o))) \/
     (frefused M o /\ v = 0 /\ alen (hitem h') = 0)).
Proof.
  intros R W. pose proof (proj1 R) as HI. pose proof (proj2 R) as HM.
  destruct o as [a b c k g|a b c]; simpl in W; destruct W as [Ha [Hb Hc]]; cbn [fstep fspec frefused].
  - destruct (hashFace_spec h a b c HI Ha Hb Hc g k) as [v [h' [E C]]]. exists v, h'. split; [exact E|].
    destruct C as [[A [Hg [-> Hz]]]|[[A [-> [HI' [t P]]]]|[t0 [P ->]]]].
    + right. rewrite (none_absent_f h M a b c R A). auto.
    + left. rewrite (none_absent_f h M a b c R A). split; [reflexivity|]. simpl.
      split; [exact HI'|]. intros x y z k'. unfold fput.
      destruct (same_face a b c x y z) eqn:Es.
      * apply same_face_key in Es. split.
        -- intros E1. inversion E1. subst k'. exists t. apply P. left. auto.
        -- intros [t' Ht]. apply P in Ht. destruct Ht as [[_ [-> _]]|[N _]]; [reflexivity|]. contradiction.
      * assert (N : fkey x y z <> fkey a b c) by (intros E2; apply same_face_key in E2; congruence).
        rewrite HM. split; intros [t' Ht]; exists t'.
        -- apply P. right. auto.
        -- apply P in Ht. destruct Ht as [[E1 _]|[_ Ht]]; [contradiction | exact Ht].
    + left. assert (Em : M a b c = Some v) by (apply HM; eauto). rewrite Em. auto.
  - destruct (hashGetFace_spec h a b c HI Ha Hb Hc) as [v [E C]]. rewrite E. cbn [bind].
    exists v, h. split; [reflexivity|]. left. destruct C as [[t P]|[A ->]].
    + assert (Em : M a b c = Some v) by (apply HM; eauto). rewrite Em. auto.
    + rewrite (none_absent_f h M a b c R A). auto.
Qed.

(** ** Histories

    A caller stops as soon as the table is lost ([alen = 0], refused growth). *)
Section Hist.
Variables (op out : Type) (step : htab -> op -> outcome (out * htab)).
Fixpoint hist (h : htab) (ops : list op) : outcome (list out) :=
  match ops with
  | [] => Ret []
  | o :: r =>
      '(v, h') <- step h o ;;
      if alen (hitem h') =? 0 then Ret [v]
      else vs <- hist h' r ;; Ret (v :: vs)
  end.
End Hist.

Lemma ehist_ok : forall ops h M, erep h M -> Forall eop_wf ops ->
  exists outs, hist _ _ estep h ops = Ret outs /\ econforms M ops outs.
Proof.
  induction ops as [|o r IH]; intros h M R W; cbn [hist].
  - exists []. split; reflexivity.
  - inversion W as [|? ? Wo Wr]; subst.
    destruct (estep_ok h M o R Wo) as [v [h' [E C]]]. rewrite E. cbn [bind].
    destruct C as [[Ev R']|[Hr [-> Hz]]].
    + pose proof (inv_len _ _ (proj1 R')) as Hn. destruct (Z.eqb_spec (alen (hitem h')) 0); [congruence|].
      destruct (IH h' _ R' Wr) as [outs [Eo Co]]. rewrite Eo. cbn [bind].
      exists (v :: outs). split; [reflexivity|]. cbn [econforms]. left. auto.
    + rewrite Hz. cbn [Z.eqb]. exists [0]. split; [reflexivity|]. cbn [econforms]. right. auto.
Qed.

Lemma ghist_ok : forall ops h M, grep h M -> Forall gop_wf ops ->
  exists outs, hist _ _ gstep h ops = Ret outs /\ gconforms M ops outs.
Proof.
  induction ops as [|o r IH]; intros h M R W; cbn [hist].
  - exists []. split; reflexivity.
  - inversion W as [|? ? Wo Wr]; subst.
    destruct (gstep_ok h M o R Wo) as [v [h' [E C]]]. rewrite E. cbn [bind].
    destruct C as [[Ev R']|[Hr [-> Hz]]].
    + pose proof (inv_len _ _ (proj1 R')) as Hn. destruct (Z.eqb_spec (alen (hitem h')) 0); [congruence|].
      destruct (IH h' _ R' Wr) as [outs [Eo Co]]. rewrite Eo. cbn [bind].
      exists (v :: outs). split; [reflexivity|]. cbn [gconforms]. left. auto.
    + rewrite Hz. cbn [Z.eqb]. exists [(0,0,0)]. split; [reflexivity|]. cbn [gconforms]. right. auto.
Qed.

Lemma fhist_ok : forall ops h M, frep h M -> Forall fop_wf ops ->
  exists outs, hist _ _ fstep h ops = Ret outs /\ fconforms M ops outs.
Proof.
  induction ops as [|o r IH]; intros h M R W; cbn [hist].
  - exists []. split; reflexivity.
  - inversion W as [|? ? Wo Wr]; subst.
    destruct (fstep_ok h M o R Wo) as [v [h' [E C]]]. rewrite E. cbn [bind].
    destruct C as [[Ev R']|[Hr [-> Hz]]].
    + pose proof (inv_len _ _ (proj1 R')) as Hn. destruct (Z.eqb_spec (alen (hitem h')) 0); [congruence|].
      destruct (IH h' _ R' Wr) as [outs [Eo Co]]. rewrite Eo. cbn [bind].
      exists (v :: outs). split; [reflexivity|]. cbn [fconforms]. left. auto.
    + rewrite Hz. cbn [Z.eqb]. exists [0]. split; [reflexivity|]. cbn [fconforms]. right. auto.
Qed.

Lemma new_rep siz max : 0 <= siz <= max ->
  exists h, hashNew siz max = Ret h /\ erep h emap0 /\ grep h gmap0.
Proof.
  intros H. destruct (hashNew_inv kd_edge siz max H) as [h [E [I [Hz _]]]]. exists h. split; [exact E|].
  assert (N : forall q k t, ~ holds kd_edge h q k t) by (intros q k t [s [[_ L] _]]; apply L; apply Hz).
  split; (split; [exact I|]).
  - intros x y k. split; [discriminate|]. intros [t Ht]. destruct (N _ _ _ Ht).
  - intros x y k t. split; [discriminate|]. intros Ht. destruct (N _ _ _ Ht).
Qed.

Lemma new_frep siz max : 0 <= siz <= max -> exists h, hashNew siz max = Ret h /\ frep h fmap0.
Proof.
  intros H. destruct (hashNew_inv kd_face siz max H) as [h [E [I [Hz _]]]]. exists h. split; [exact E|].
  split; [exact I|]. intros x y z k. split; [discriminate|]. intros [t [s [[_ L] _]]]. exfalso. apply L. apply Hz.
Qed.
