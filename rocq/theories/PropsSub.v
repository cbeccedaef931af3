(** C28: keeping one subdomain. *)
From Coq Require Import ZArith List Bool Lia.
From Verif Require Import CBase Chain MeshModel PoolModel PoolSpec PoolTet SubModel.
Import ListNotations.
Open Scope Z_scope.

(** ** Tags: 16 bits *)

Lemma tag_facts t : 0 <= t < 65536 ->
  (t < MG_NUL -> Z.ldiff (Z.lor t MG_NUL) MG_NUL = t) /\
  MG_NUL <= Z.lor t MG_NUL < 65536 /\ 0 <= Z.ldiff t MG_NUL < MG_NUL /\ (t < MG_NUL -> Z.ldiff t MG_NUL = t) /\
  Z.land (Z.lor t MG_NUL) MG_REQ = Z.land t MG_REQ /\ Z.land (Z.ldiff t MG_NUL) MG_REQ = Z.land t MG_REQ.
Proof.
  set (f := fun t =>
    (negb (t <? MG_NUL) || (Z.ldiff (Z.lor t MG_NUL) MG_NUL =? t)) &&
    ((MG_NUL <=? Z.lor t MG_NUL) && (Z.lor t MG_NUL <? 65536)) &&
    ((0 <=? Z.ldiff t MG_NUL) && (Z.ldiff t MG_NUL <? MG_NUL)) &&
    (negb (t <? MG_NUL) || (Z.ldiff t MG_NUL =? t)) &&
    (Z.land (Z.lor t MG_NUL) MG_REQ =? Z.land t MG_REQ) && (Z.land (Z.ldiff t MG_NUL) MG_REQ =? Z.land t MG_REQ)).
  intros Ht. pose proof (Z.div_mod t 256 ltac:(lia)) as Q. pose proof (Z.mod_pos_bound t 256 ltac:(lia)) as B.
  assert (I1 : In (t / 256) (zrange 0 255)) by (apply in_zrange; lia).
  assert (I2 : In (t mod 256) (zrange 0 255)) by (apply in_zrange; lia).
  assert (H : forallb (fun h => forallb (fun l => f (256 * h + l)) (zrange 0 255)) (zrange 0 255) = true) by (vm_compute; reflexivity).
  rewrite forallb_forall in H. specialize (H _ I1). cbv beta in H.
  rewrite forallb_forall in H. specialize (H _ I2). cbv beta in H.
  rewrite <- Q in H.
  unfold f in H. rewrite !andb_true_iff, !orb_true_iff, !negb_true_iff, !Z.ltb_ge, !Z.eqb_eq, !Z.leb_le, !Z.ltb_lt in H.
  lia.
Qed.

(** ** Statement *)

Definition is_vertex (t : tetra) (x : Z) : Prop := x = v0 t \/ x = v1 t \/ x = v2 t \/ x = v3 t.

(** Link of face [i] of element [k]: 0 or [4*j+iv]. *)
Definition face (a : arr Z) (k i : Z) : Z := aget a (4 * (k - 1) + 1 + i).

Section Sub.
Context (nsd : Z) (s : vpool) (e : epool) (pr : arr (list Z)) (npr : Z).

Let P i := aget (vpt s) i.
Let T k := aget (etet e) k.
Definition alive_t (k : Z) : Prop := 1 <= k <= ene e /\ eok (T k) = true.
Definition kept_t (k : Z) : Prop := alive_t k /\ tref (T k) = nsd.

(** The adjacency joins live elements, in both directions, and no element to itself. *)
Definition adj_ok (a : arr Z) : Prop :=
  alen a = 4 * emax e + 5 /\
  forall k i, alive_t k -> 0 <= i < 4 ->
    face a k i = 0 \/
    exists j iv, face a k i = 4 * j + iv /\ 0 <= iv < 4 /\ j <> k /\ alive_t j /\ face a j iv = 4 * k + i.

(** A mesh: vertices of the elements are in range, tags have 16 bits, boundary
    indices are in range. *)
Record mesh_ok : Prop := {
  m_np : 0 <= vnp s < alen (vpt s);
  m_tag : forall i, 1 <= i <= vnp s -> 0 <= ptag (P i) < 65536;
  m_xp : forall i, 1 <= i <= vnp s -> 0 <= pxp (P i) <= vxmax s;
  m_ne : 0 <= ene e < alen (etet e);
  m_emax : ene e <= emax e;
  m_tet : forall k x, alive_t k -> is_vertex (T k) x -> 1 <= x <= vnp s;
  m_pr : 0 <= npr < alen pr;
  m_prv : forall k x, 1 <= k <= npr -> prok (aget pr k) = true -> In x (aget pr k) -> 1 <= x <= vnp s;
  m_adj : forall a, eadj e = Some a -> adj_ok a }.

(** Vertices that remain: used by a kept element or a prism, or required and
    used by no element at all (a vertex that was already unused comes back only
    if its scratch field [flag] is zero). *)
Definition used_v (x : Z) : Prop :=
  (exists k, kept_t k /\ is_vertex (T k) x) \/ (exists k, 1 <= k <= npr /\ prok (aget pr k) = true /\ In x (aget pr k)).
Definition isolated_v (x : Z) : Prop :=
  Z.land (ptag (P x)) MG_REQ <> 0 /\ (forall k, alive_t k -> ~ is_vertex (T k) x) /\ (vok (P x) = true \/ pflag (P x) = 0).

Hypothesis OK : mesh_ok.

(** ** Flags set by the loop *)

Lemma tv_vertex t i : 0 <= i < 4 -> is_vertex t (tv t i).
Proof.
  intros H. unfold is_vertex, tv. assert (i = 0 \/ i = 1 \/ i = 2 \/ i = 3) as [->|[->|[->| ->]]] by lia; cbn; auto.
Qed.
Lemma vertex_tv t x : is_vertex t x -> exists i, 0 <= i < 4 /\ tv t i = x.
Proof. intros [->|[->|[->| ->]]]; [exists 0|exists 1|exists 2|exists 3]; split; auto; lia. Qed.

(** Same vertex apart from the flag and the tag. *)
Definition same_pt (p q : point) : Prop := pc p = pc q /\ pref p = pref q /\ pxp p = pxp q /\ ptmp p = ptmp q.
Lemma same_refl p : same_pt p p. Proof. repeat split. Qed.
Lemma same_flag p q f t : same_pt p q -> same_pt (with_flag p f t) q.
Proof. intros (A & B & C & D). repeat split; assumption. Qed.

Lemma mark_unused_ok : exists a, mark_unused s = Ret (set_vpt s a) /\ alen a = alen (vpt s) /\
  (forall i, ~ 1 <= i <= vnp s -> aget a i = P i) /\
  (forall i, 1 <= i <= vnp s -> same_pt (aget a i) (P i) /\
     (vok (P i) = true -> pflag (aget a i) = 0 /\ ptag (aget a i) = Z.lor (ptag (P i)) MG_NUL) /\
     (vok (P i) = false -> aget a i = P i)).
Proof.
  destruct OK as [H1 H2 _ _ _ _ _ _ _]. unfold mark_unused.
  destruct (@for_range_inv (arr point) (fun k a => alen a = alen (vpt s) /\
      (forall i, ~ 1 <= i < k -> aget a i = P i) /\
      (forall i, 1 <= i < k -> same_pt (aget a i) (P i) /\
        (vok (P i) = true -> pflag (aget a i) = 0 /\ ptag (aget a i) = Z.lor (ptag (P i)) MG_NUL) /\
        (vok (P i) = false -> aget a i = P i)))
     (fun k a => p <- rd a k ;;
         if negb (vok p) then Ret a else wr a k (with_flag p 0 (Z.lor (ptag p) MG_NUL))) 1 (vnp s) (vpt s)) as (a & E & L & F & G).
  - lia.
  - split; [reflexivity|]. split; [reflexivity|]. intros; lia.
  - intros k a Hk (L & F & G). rewrite rd_ok by lia. cbn [bind].
    rewrite (F k) by lia. destruct (vok (P k)) eqn:V; cbn [negb].
    + rewrite wr_ok by lia. eexists. split; [reflexivity|]. cbn [alen aget]. split; [exact L|]. split.
      * intros i Hi. rewrite upd_other by lia. apply F. lia.
      * intros i Hi. unfold upd. destruct (Z.eqb_spec i k) as [->|]; [|apply G; lia].
        split; [apply same_flag, same_refl|]. split; [intros _; split; reflexivity|congruence].
    + exists a. split; [reflexivity|]. split; [exact L|]. split; [intros; apply F; lia|].
      intros i Hi. destruct (Z.eq_dec i k) as [->|]; [|apply G; lia].
      rewrite F by lia. split; [apply same_refl|]. split; [congruence|reflexivity].
  - rewrite E. cbn [bind]. exists a. split; [reflexivity|]. split; [exact L|]. split; intros i Hi; [apply F|apply G]; lia.
Qed.

Lemma flag_vertices_ok a t : (forall x, is_vertex t x -> 0 <= x < alen a) ->
  exists a', flag_vertices a t = Ret a' /\ alen a' = alen a /\
    (forall i, ~ is_vertex t i -> aget a' i = aget a i) /\
    (forall i, is_vertex t i -> same_pt (aget a' i) (aget a i) /\ pflag (aget a' i) = 1 /\ ptag (aget a' i) = ptag (aget a i)).
Proof.
  intros Hb. unfold flag_vertices.
  destruct (@for_range_inv (arr point) (fun k b => alen b = alen a /\
      (forall i, ~ is_vertex t i -> aget b i = aget a i) /\
      (forall i, same_pt (aget b i) (aget a i) /\ ptag (aget b i) = ptag (aget a i)) /\
      (forall j, 0 <= j < k -> pflag (aget b (tv t j)) = 1))
     (fun i a => p <- rd a (tv t i) ;; wr a (tv t i) (with_flag p 1 (ptag p))) 0 3 a) as (b & E & L & F & G & Fl).
  - lia.
  - split; [reflexivity|]. split; [reflexivity|]. split; [split; [apply same_refl|reflexivity]|]. intros; lia.
  - intros k b Hk (L & F & G & Fl). pose proof (Hb _ (tv_vertex t k ltac:(lia))) as B.
    rewrite rd_ok by lia. cbn [bind]. rewrite wr_ok by lia. eexists. split; [reflexivity|].
    cbn [alen aget]. split; [exact L|]. split; [|split].
    + intros i Hi. rewrite upd_other; [apply F; exact Hi|]. intros ->. apply Hi. apply tv_vertex. lia.
    + intros i. unfold upd. destruct (Z.eqb_spec i (tv t k)) as [->|]; [|apply G].
      destruct (G (tv t k)) as [G1 G2]. split; [apply same_flag; exact G1|exact G2].
    + intros j Hj. unfold upd. destruct (Z.eqb_spec (tv t j) (tv t k)); [reflexivity|]. apply Fl.
      destruct (Z.eq_dec j k) as [->|]; [congruence|lia].
  - exists b. split; [exact E|]. split; [exact L|]. split; [exact F|].
    intros i Hi. destruct (G i) as [G1 G2]. split; [exact G1|]. split; [|exact G2].
    destruct (vertex_tv t i Hi) as (j & Hj & <-). apply Fl. lia.
Qed.

(** ** The element loop *)

(** Elements already deleted before turn [k]. *)
Definition gone (k j : Z) : bool := (j <? k) && (1 <=? j) && eok (T j) && negb (tref (T j) =? nsd).
Definition nxt (x : Z) : Z := x / 4.

(** Face value after the deletions. *)
Definition cut (D : Z -> bool) (x : Z) : Z := if x =? 0 then 0 else if D (nxt x) then 0 else x.

Record loop_inv (k : Z) (a0 : arr point) (a : arr point) (f : epool) : Prop := {
  l_len : alen a = alen a0 /\ alen (etet f) = alen (etet e) /\ emax f = emax e;
  l_ne : 0 <= ene f <= ene e;
  l_end : forall j, ene f < j <= ene e -> eok (aget (etet f) j) = false;
  l_tet : forall j, 1 <= j <= ene e -> (gone k j = true -> eok (aget (etet f) j) = false) /\
                                       (gone k j = false -> aget (etet f) j = T j);
  l_adj : match eadj e, eadj f with
          | None, None => True
          | Some b0, Some b => alen b = alen b0 /\
              forall j i, alive_t j -> 0 <= i < 4 -> face b j i = if gone k j then 0 else cut (gone k) (face b0 j i)
          | _, _ => False
          end;
  l_pt : forall i, same_pt (aget a i) (aget a0 i) /\ ptag (aget a i) = ptag (aget a0 i);
  l_flag : forall i, (exists j, 1 <= j < k /\ alive_t j /\ is_vertex (T j) i) -> pflag (aget a i) = 1;
  l_noflag : forall i, (forall j, 1 <= j < k -> alive_t j -> ~ is_vertex (T j) i) -> pflag (aget a i) = pflag (aget a0 i) }.

Lemma gone_S k j : gone (k + 1) j = gone k j || ((j =? k) && (1 <=? j) && eok (T j) && negb (tref (T j) =? nsd)).
Proof.
  unfold gone. destruct (Z.ltb_spec j (k + 1)), (Z.ltb_spec j k), (Z.eqb_spec j k); try lia; cbn [andb orb]; rewrite ?orb_false_r, ?orb_true_r; try reflexivity.
Qed.

Lemma div4 j iv : 0 <= iv < 4 -> (4 * j + iv) / 4 = j /\ (4 * j + iv) mod 4 = iv.
Proof.
  intros H. split.
  - symmetry. apply Z.div_unique with iv; lia.
  - symmetry. apply Z.mod_unique with j; lia.
Qed.

Lemma unlink_ok b0 b k : eadj e = Some b0 -> alive_t k -> alen b = alen b0 ->
  (forall j i, alive_t j -> 0 <= i < 4 -> face b j i = if gone k j then 0 else cut (gone k) (face b0 j i)) ->
  exists b', unlink (Some b) k = Ret (Some b') /\ alen b' = alen b0 /\
    (forall j i, alive_t j -> j <> k -> 0 <= i < 4 ->
       face b' j i = if gone k j then 0 else cut (fun x => gone k x || (x =? k)) (face b0 j i)).
Proof.
  intros Eb Ak L Hb. destruct (m_adj OK b0 Eb) as [La Ha]. pose proof (m_emax OK) as Em. unfold unlink.
  assert (Gk : gone k k = false) by (unfold gone; rewrite Z.ltb_irrefl; reflexivity).
  destruct (@for_range_inv (arr Z) (fun c d => alen d = alen b0 /\
      (forall i, 0 <= i < 4 -> face d k i = face b k i) /\
      (forall j i, alive_t j -> j <> k -> 0 <= i < 4 ->
        face d j i = if gone k j then 0 else
                     if (nxt (face b0 j i) =? k) && (face b0 j i mod 4 <? c) then 0 else cut (gone k) (face b0 j i)))
     (fun i a => x <- rd a (4 * (k - 1) + 1 + i) ;;
              if x =? 0 then Ret a else wr a (4 * (Z.quot x 4 - 1) + 1 + Z.rem x 4) 0) 0 3 b) as (d & E & Ld & F & G).
  - lia.
  - split; [exact L|]. split; [reflexivity|]. intros j i Hj Hn Hi. rewrite Hb by auto.
    assert (M : (face b0 j i mod 4 <? 0) = false) by (apply Z.ltb_ge; apply Z.mod_pos_bound; lia).
    rewrite M, andb_false_r. reflexivity.
  - intros c d Hc (Ld & F & G). destruct Ak as [Ak1 Ak2]. rewrite rd_ok by lia. cbn [bind].
    fold (face d k c). rewrite F by lia. rewrite Hb by (auto; split; auto; lia). rewrite Gk.
    (* entries pointing to face c of k *)
    assert (Back : forall j i, alive_t j -> 0 <= i < 4 -> nxt (face b0 j i) = k -> face b0 j i mod 4 = c ->
              face b0 k c = 4 * j + i /\ j <> k).
    { intros j i Hj Hi Hn Hm. destruct (Ha j i Hj Hi) as [Z0|(j' & iv & E1 & Hv & Hne & Hl & E2)].
      - exfalso. unfold nxt in Hn. rewrite Z0 in Hn. cbn in Hn. lia.
      - unfold nxt in Hn. destruct (div4 j' iv Hv) as [D1 D2]. rewrite E1, D1 in Hn. rewrite E1, D2 in Hm. subst j' iv.
        split; [exact E2|auto]. }
    assert (Ext : forall j i, alive_t j -> 0 <= i < 4 ->
       (nxt (face b0 j i) =? k) && (face b0 j i mod 4 <? c + 1) =
       (nxt (face b0 j i) =? k) && (face b0 j i mod 4 <? c) || ((nxt (face b0 j i) =? k) && (face b0 j i mod 4 =? c))).
    { intros j i _ _. destruct (nxt (face b0 j i) =? k); [|reflexivity]. cbn [andb].
      destruct (Z.ltb_spec (face b0 j i mod 4) (c + 1)), (Z.ltb_spec (face b0 j i mod 4) c), (Z.eqb_spec (face b0 j i mod 4) c); auto; lia. }
    destruct (Ha k c (conj Ak1 Ak2) ltac:(lia)) as [Z0|(j' & iv & E1 & Hv & Hne & Hl & E2)].
    + rewrite Z0. cbn [cut]. change (cut (gone k) 0) with 0. cbn [Z.eqb]. exists d. split; [reflexivity|]. split; [exact Ld|]. split; [exact F|].
      intros j i Hj Hn Hi. rewrite G by auto. rewrite Ext by auto.
      destruct (Z.eqb_spec (nxt (face b0 j i)) k) as [Ek|]; cbn [andb orb]; [|reflexivity].
      destruct (Z.eqb_spec (face b0 j i mod 4) c) as [Ec|]; [|rewrite orb_false_r; reflexivity].
      destruct (Back j i Hj Hi Ek Ec) as [B1 _]. destruct Hj. lia.
    + destruct (div4 j' iv Hv) as [D1 D2].
      assert (Nz : face b0 k c =? 0 = false) by (apply Z.eqb_neq; destruct Hl; lia).
      assert (Cx : cut (gone k) (face b0 k c) = if gone k j' then 0 else 4 * j' + iv).
      { unfold cut. rewrite Nz. unfold nxt. rewrite E1, D1. reflexivity. }
      rewrite Cx. destruct (gone k j') eqn:Gj.
      * cbn [Z.eqb]. exists d. split; [reflexivity|]. split; [exact Ld|]. split; [exact F|].
        intros j i Hj Hn Hi. rewrite G by auto. rewrite Ext by auto.
        destruct (Z.eqb_spec (nxt (face b0 j i)) k) as [Ek|]; cbn [andb orb]; [|reflexivity].
        destruct (Z.eqb_spec (face b0 j i mod 4) c) as [Ec|]; [|rewrite orb_false_r; reflexivity].
        destruct (Back j i Hj Hi Ek Ec) as [B1 _]. assert (j = j') by lia. subst j. rewrite Gj. reflexivity.
      * rewrite E1 in Nz. rewrite Nz. destruct Hl as [Hl1 Hl2].
        rewrite Z.quot_div_nonneg by lia. rewrite Z.rem_mod_nonneg by lia. rewrite D1, D2.
        rewrite wr_ok by lia. eexists. split; [reflexivity|]. cbn [alen]. split; [exact Ld|]. split.
        -- intros i Hi. unfold face. cbn [aget]. rewrite upd_other by lia. apply F. exact Hi.
        -- intros j i Hj Hn Hi. unfold face at 1. cbn [aget]. unfold upd.
           destruct (Z.eqb_spec (4 * (j - 1) + 1 + i) (4 * (j' - 1) + 1 + iv)) as [Eq|Nq].
           ++ assert (j = j' /\ i = iv) as [-> ->] by (destruct Hj; lia). rewrite E2.
              destruct (gone k j'); [reflexivity|].
              destruct (div4 k c ltac:(lia)) as [D3 D4]. unfold nxt. rewrite D3, D4, Z.eqb_refl.
              destruct (Z.ltb_spec c (c + 1)); [reflexivity|lia].
           ++ fold (face d j i). rewrite G by auto. rewrite Ext by auto.
              destruct (Z.eqb_spec (nxt (face b0 j i)) k) as [Ek|]; cbn [andb orb]; [|reflexivity].
              destruct (Z.eqb_spec (face b0 j i mod 4) c) as [Ec|]; [|rewrite orb_false_r; reflexivity].
              destruct (Back j i Hj Hi Ek Ec) as [B1 _]. lia.
  - rewrite E. cbn [bind]. exists d. split; [reflexivity|]. split; [exact Ld|].
    intros j i Hj Hn Hi. rewrite G by auto. destruct (gone k j); [reflexivity|].
    assert (M : (face b0 j i mod 4 <? 3 + 1) = true) by (apply Z.ltb_lt; apply Z.mod_pos_bound; lia).
    rewrite M, andb_true_r. unfold cut. destruct (face b0 j i =? 0); [destruct (_ =? k); reflexivity|].
    destruct (gone k (nxt (face b0 j i))), (nxt (face b0 j i) =? k); reflexivity.
Qed.

Lemma loop_step k a0 a f fuel : loop_inv k a0 a f -> alen a0 = alen (vpt s) -> 1 <= k <= ene e + 1 -> (Z.to_nat (ene e - k + 1) < fuel)%nat ->
  exists a' f', keep_loop fuel nsd k a f = Ret (a', f') /\ loop_inv (ene e + 1) a0 a' f'.
Proof.
  revert k a f. induction fuel as [|fuel IH]; intros k a f I La0 Hk Hf; [lia|]. cbn [keep_loop].
  pose proof (m_np OK) as Hnp. pose proof (m_ne OK) as Hne. pose proof (m_emax OK) as Hem.
  destruct I as [(Ll1 & Ll2 & Ll3) Ln Lend Lt Ladj Lp Lf Lnf].
  assert (Gge : forall j, k <= j -> gone k j = false) by (intros j Hj; unfold gone; destruct (Z.ltb_spec j k); [lia|reflexivity]).
  destruct (Z.ltb_spec (ene f) k) as [Hend|Hin].
  - (* nothing live remains from k on *)
    assert (Dead : forall j, k <= j <= ene e -> eok (T j) = false).
    { intros j Hj. specialize (Lend j ltac:(lia)). destruct (Lt j ltac:(lia)) as [_ L]. rewrite L in Lend by (apply Gge; lia). exact Lend. }
    assert (Ge : forall j, gone (ene e + 1) j = gone k j).
    { intros j. unfold gone. destruct (Z.ltb_spec j (ene e + 1)), (Z.ltb_spec j k); cbn [andb]; auto; [|lia].
      rewrite Dead by lia. rewrite andb_false_r. reflexivity. }
    exists a, f. split; [reflexivity|]. constructor; auto.
    + intros j Hj. rewrite Ge. apply Lt. exact Hj.
    + destruct (eadj e), (eadj f); auto. destruct Ladj as [A1 A2]. split; [exact A1|].
      intros j i Hj Hi. rewrite A2 by auto. rewrite Ge. unfold cut. rewrite Ge. reflexivity.
    + intros i (j & Hj & Al & V). apply Lf. exists j. split; [|auto].
      destruct (Z.lt_ge_cases j k); [lia|]. destruct Al as [Al1 Al2]. rewrite Dead in Al2 by lia. discriminate.
    + intros i Hn. apply Lnf. intros j Hj. apply Hn. lia.
  - rewrite rd_ok by lia. cbn [bind]. destruct (Lt k ltac:(lia)) as [_ Tk]. specialize (Tk (Gge k ltac:(lia))). rewrite Tk.
    destruct (eok (T k)) eqn:Ek; cbn [negb].
    2:{ (* unused slot *)
      assert (Ge : forall j, gone (k + 1) j = gone k j).
      { intros j. rewrite gone_S. destruct (Z.eqb_spec j k) as [->|]; [rewrite Ek, andb_false_r|]; cbn [andb]; rewrite orb_false_r; reflexivity. }
      assert (Nk : ~ alive_t k) by (intros [_ X]; congruence).
      apply IH; [|auto|lia|lia]. constructor; auto.
      - intros j Hj. rewrite Ge. apply Lt. exact Hj.
      - destruct (eadj e), (eadj f); auto. destruct Ladj as [A1 A2]. split; [exact A1|].
        intros j i Hj Hi. rewrite A2 by auto. rewrite Ge. unfold cut. rewrite Ge. reflexivity.
      - intros i (j & Hj & Al & V). apply Lf. exists j. split; [|auto]. assert (j <> k) by (intros ->; auto). lia.
      - intros i Hn. apply Lnf. intros j Hj. apply Hn. lia. }
    assert (Ak : alive_t k) by (split; [lia|exact Ek]).
    destruct (flag_vertices_ok a (T k)) as (a1 & Ea & La & Fa & Ga).
    { intros x Hx. pose proof (m_tet OK k x Ak Hx). lia. }
    rewrite Ea. cbn [bind].
    assert (Lp' : forall i, same_pt (aget a1 i) (aget a0 i) /\ ptag (aget a1 i) = ptag (aget a0 i)).
    { intros i. destruct (Lp i) as [(P1 & P2 & P3 & P4) P5].
      assert (Dec : is_vertex (T k) i \/ ~ is_vertex (T k) i) by (unfold is_vertex; lia).
      destruct Dec as [V|V].
      - destruct (Ga i V) as ((Q1 & Q2 & Q3 & Q4) & _ & Q5). split; [repeat split|]; congruence.
      - rewrite (Fa i V). split; [repeat split|]; congruence. }
    assert (Lf' : forall i, (exists j, 1 <= j < k + 1 /\ alive_t j /\ is_vertex (T j) i) -> pflag (aget a1 i) = 1).
    { intros i (j & Hj & Al & V).
      assert (Dec : is_vertex (T k) i \/ ~ is_vertex (T k) i) by (unfold is_vertex; lia).
      destruct Dec as [V'|V']; [apply (Ga i V')|]. rewrite (Fa i V'). apply Lf. exists j. split; [|auto].
      assert (j <> k) by (intros ->; auto). lia. }
    assert (Lnf' : forall i, (forall j, 1 <= j < k + 1 -> alive_t j -> ~ is_vertex (T j) i) -> pflag (aget a1 i) = pflag (aget a0 i)).
    { intros i Hn. rewrite Fa by (apply Hn; auto; lia). apply Lnf. intros j Hj. apply Hn. lia. }
    destruct (Z.eqb_spec (tref (T k)) nsd) as [Er|Er].
    + (* kept *)
      assert (Ge : forall j, gone (k + 1) j = gone k j).
      { intros j. rewrite gone_S. destruct (Z.eqb_spec j k) as [->|]; [rewrite Er, Z.eqb_refl, andb_false_r|]; cbn [andb]; rewrite orb_false_r; reflexivity. }
      apply IH; [|auto|lia|lia]. constructor; auto.
      * split; [congruence|auto].
      * intros j Hj. rewrite Ge. apply Lt. exact Hj.
      * destruct (eadj e), (eadj f); auto. destruct Ladj as [A1 A2]. split; [exact A1|].
        intros j i Hj Hi. rewrite A2 by auto. rewrite Ge. unfold cut. rewrite Ge. reflexivity.
    + (* deleted *)
      assert (Ge : forall j, gone (k + 1) j = gone k j || (j =? k)).
      { intros j. rewrite gone_S. destruct (Z.eqb_spec j k) as [->|]; cbn [andb]; [|reflexivity].
        rewrite Ek. destruct (Z.leb_spec 1 k); [|lia]. destruct (Z.eqb_spec (tref (T k)) nsd); [congruence|reflexivity]. }
      assert (U : exists adj, unlink (eadj f) k = Ret adj /\
        match eadj e, adj with
        | None, None => True
        | Some b0, Some b => alen b = alen b0 /\
            forall j i, alive_t j -> j <> k -> 0 <= i < 4 -> face b j i = if gone k j then 0 else cut (fun x => gone k x || (x =? k)) (face b0 j i)
        | _, _ => False
        end).
      { destruct (eadj e) as [b0|] eqn:Eb, (eadj f) as [b|] eqn:Ef; try contradiction.
        - destruct Ladj as [A1 A2]. destruct (unlink_ok b0 b k Eb Ak A1 A2) as (b' & E1 & E2 & E3).
          exists (Some b'). split; [exact E1|]. split; [exact E2|exact E3].
        - exists None. split; reflexivity. }
      destruct U as (adj & Eu & Hu). rewrite Eu. cbn [bind]. unfold delElt. cbn [etet eadj ene enil emax].
      rewrite rd_ok by lia. cbn [bind]. rewrite Tk, Ek. cbn [negb]. rewrite wr_ok by lia. cbn [bind].
      destruct (clear_adj_ok adj k (emax e)) as (adj' & Ec & Hc).
      { lia. }
      { intros b Eb. rewrite Eb in Hu. destruct (eadj e) as [b0|] eqn:Eb0; [|contradiction].
        destruct Hu as [-> _]. apply (m_adj OK b0 Eb0). }
      rewrite Ec. cbn [bind]. set (ar := mkArr _ _). set (z := set_v3 tetra0 (enil f)) in *.
      assert (Har : forall j, aget ar j = if j =? k then z else aget (etet f) j) by reflexivity.
      assert (Hz : eok z = false) by reflexivity.
      assert (Hn : exists ne, (if k =? ene f then trim eok (S (Z.to_nat (ene f))) ar (ene f) else Ret (ene f)) = Ret ne
        /\ 0 <= ne <= ene f /\ (forall j, ne < j <= ene f -> eok (aget ar j) = false)).
      { destruct (k =? ene f).
        - destruct (trim_spec _ eok ar (S (Z.to_nat (ene f))) (ene f)) as (m & T1 & T2 & T4 & T3); [unfold ar; cbn [alen]; lia|lia|].
          exists m. auto.
        - exists (ene f). split; [reflexivity|]. split; [lia|]. intros; lia. }
      destruct Hn as (ne & En & Rn & Tn). rewrite En. cbn [bind].
      apply IH; [|auto|lia|lia]. constructor; cbn [ene enil emax etet eadj]; auto.
      * split; [congruence|]. split; [exact Ll2|reflexivity || exact Ll3].
      * lia.
      * intros j Hj. destruct (Z.le_gt_cases j (ene f)); [apply Tn; lia|]. rewrite Har. destruct (j =? k); [exact Hz|]. apply Lend. lia.
      * intros j Hj. rewrite Ge, Har. destruct (Z.eqb_spec j k) as [->|].
        -- rewrite orb_true_r. split; [intros _; exact Hz|discriminate].
        -- rewrite orb_false_r. apply Lt. exact Hj.
      * destruct (eadj e) as [b0|]; destruct adj as [b|]; try contradiction; destruct adj' as [b'|]; try contradiction; auto.
        destruct Hu as [U1 U2]. destruct Hc as [C1 C2]. split; [congruence|].
        intros j i Hj Hi. rewrite Ge. unfold face at 1. rewrite C2. unfold in_rows.
        destruct (Z.eqb_spec j k) as [->|Nj].
        -- rewrite orb_true_r. destruct (Z.leb_spec (4 * (k - 1) + 1) (4 * (k - 1) + 1 + i)), (Z.leb_spec (4 * (k - 1) + 1 + i) (4 * (k - 1) + 4)); try lia. reflexivity.
        -- rewrite orb_false_r. fold (face b j i). rewrite U2 by auto.
           assert (N : (4 * (k - 1) + 1 <=? 4 * (j - 1) + 1 + i) && (4 * (j - 1) + 1 + i <=? 4 * (k - 1) + 4) = false).
           { destruct (Z.leb_spec (4 * (k - 1) + 1) (4 * (j - 1) + 1 + i)), (Z.leb_spec (4 * (j - 1) + 1 + i) (4 * (k - 1) + 4)); try reflexivity; lia. }
           rewrite N. destruct (gone k j); [reflexivity|]. unfold cut. rewrite Ge. reflexivity.
Qed.

(** ** Vertices *)

(** [a'] is [a] with the unused mark removed from the vertices of [S]. *)
Definition revived (S : Z -> Prop) (a a' : arr point) : Prop :=
  alen a' = alen a /\
  forall i, same_pt (aget a' i) (aget a i) /\ pflag (aget a' i) = pflag (aget a i) /\
    (S i -> ptag (aget a' i) = Z.ldiff (ptag (aget a i)) MG_NUL) /\ (~ S i -> ptag (aget a' i) = ptag (aget a i)) /\
    (S i \/ ~ S i).

Lemma same_trans p q r : same_pt p q -> same_pt q r -> same_pt p r.
Proof. unfold same_pt. intros (A & B & C & D) (A' & B' & C' & D'). repeat split; congruence. Qed.

Lemma ldiff_twice t m : Z.ldiff (Z.ldiff t m) m = Z.ldiff t m.
Proof. rewrite Z.ldiff_ldiff_l. f_equal. apply Z.lor_diag. Qed.

Lemma revived_none a : revived (fun _ => False) a a.
Proof. split; [reflexivity|]. intros i. split; [apply same_refl|]. split; [reflexivity|]. split; [tauto|]. auto. Qed.

Lemma revived_add S S' a a' x : revived S a a' -> 0 <= x < alen a -> (forall i, S' i <-> S i \/ i = x) ->
  exists a'', revive a' x = Ret a'' /\ revived S' a a''.
Proof.
  intros [L R] Hx HS. unfold revive. rewrite rd_ok by lia. cbn [bind]. rewrite wr_ok by lia. eexists. split; [reflexivity|].
  split; [exact L|]. intros i. cbn [aget]. unfold upd. destruct (R i) as (R1 & R2 & R3 & R4 & R5).
  destruct (Z.eqb_spec i x) as [->|N].
  - cbn [pflag ptag with_flag]. split; [apply same_flag; exact R1|]. split; [exact R2|].
    assert (E : Z.ldiff (ptag (aget a' x)) MG_NUL = Z.ldiff (ptag (aget a x)) MG_NUL).
    { destruct R5 as [R5|R5]; [rewrite (R3 R5); apply ldiff_twice|rewrite (R4 R5); reflexivity]. }
    split; [intros _; exact E|]. split; [|left; apply HS; auto]. intros H. exfalso. apply H, HS. auto.
  - split; [exact R1|]. split; [exact R2|]. split; [|split; [|rewrite HS; tauto]].
    + intros H. apply HS in H. destruct H; [auto|contradiction].
    + intros H. apply R4. intros H'. apply H, HS. auto.
Qed.

Lemma revived_ext S S' a a' : revived S a a' -> (forall i, S' i <-> S i) -> revived S' a a'.
Proof.
  intros [L R] H. split; [exact L|]. intros i. destruct (R i) as (R1 & R2 & R3 & R4 & R5). repeat split; try apply R1; auto.
  - intros X. apply R3, H, X.
  - intros X. apply R4. intros Y. apply X, H, Y.
  - rewrite H. exact R5.
Qed.

Lemma revived_all l : forall S S' a a', revived S a a' -> (forall x, In x l -> 0 <= x < alen a) -> (forall i, S' i <-> S i \/ In i l) ->
  exists a'', revive_all a' l = Ret a'' /\ revived S' a a''.
Proof.
  induction l as [|x l IH]; intros S S' a a' R Hl HS; cbn [revive_all].
  - exists a'. split; [reflexivity|]. apply revived_ext with S; [exact R|]. intros i. rewrite HS. cbn. tauto.
  - destruct (revived_add S (fun i => S i \/ i = x) a a' x R (Hl x (or_introl eq_refl)) (fun i => iff_refl _)) as (a1 & E1 & R1).
    rewrite E1. cbn [bind]. apply (IH (fun i => S i \/ i = x)); [exact R1|intros y Hy; apply Hl; right; exact Hy|].
    intros i. rewrite HS. cbn. intuition congruence.
Qed.

(** Turn by turn: turn [k] adds the vertices of [l k] when [c k]. *)
Lemma revived_loop n (body : Z -> arr point -> outcome (arr point)) (Q : Z -> Z -> Prop) a0 a S :
  0 <= n -> revived S a0 a ->
  (forall S1 b k, 1 <= k <= n -> revived S1 a0 b -> (forall j, S1 j <-> S j \/ exists k', 1 <= k' < k /\ Q k' j) ->
     exists b', body k b = Ret b' /\ revived (fun j => S1 j \/ Q k j) a0 b') ->
  exists b, for_range 1 n body a = Ret b /\ revived (fun j => S j \/ exists k, 1 <= k <= n /\ Q k j) a0 b.
Proof.
  intros Hn R Hb.
  destruct (@for_range_inv (arr point) (fun k b => revived (fun j => S j \/ exists k', 1 <= k' < k /\ Q k' j) a0 b) body 1 n a) as (b & E & I).
  - lia.
  - apply revived_ext with S; [exact R|]. intros i. split; [intros [|(k & K & _)]; [auto|lia]|auto].
  - intros k b Hk I. destruct (Hb _ b k Hk I (fun _ => iff_refl _)) as (b' & E & I'). exists b'. split; [exact E|].
    apply revived_ext with (1 := I'). intros j. split.
    + intros [|(k' & K & H)]; [auto|]. destruct (Z.eq_dec k' k) as [->|]; [auto|]. left. right. exists k'. split; [lia|auto].
    + intros [[|(k' & K & H)]|H]; [auto| |]; right; [exists k'|exists k]; (split; [lia|auto]).
  - exists b. split; [exact E|]. apply revived_ext with (1 := I). intros j.
    split; (intros [|(k & K & H)]; [auto|right; exists k; split; [lia|auto]]).
Qed.

Lemma mark_points_ok a : alen a = alen (vpt s) -> exists b,
  for_range 1 (vnp s) (fun k a => p <- rd a k ;;
       if negb (pflag p =? 0) || (Z.land (ptag p) MG_REQ =? 0) then Ret a else revive a k) a = Ret b /\
  revived (fun i => False \/ exists k, 1 <= k <= vnp s /\ (i = k /\ pflag (aget a k) = 0 /\ Z.land (ptag (aget a k)) MG_REQ <> 0)) a b.
Proof.
  intros L. pose proof (m_np OK) as Hn.
  apply (revived_loop (vnp s) _ (fun k i => i = k /\ pflag (aget a k) = 0 /\ Z.land (ptag (aget a k)) MG_REQ <> 0) a a (fun _ => False));
    [lia|apply revived_none|].
  intros S1 b k Hk R HS. pose proof R as [L' R']. rewrite rd_ok by lia. cbn [bind].
  destruct (R' k) as (R1 & R2 & R3 & R4 & R5).
  assert (Nk : ~ S1 k). { rewrite HS. intros [[]|(k' & K & E & _)]. lia. }
  rewrite R2, (R4 Nk). destruct (Z.eqb_spec (pflag (aget a k)) 0) as [E0|N0]; cbn [negb orb].
  - destruct (Z.eqb_spec (Z.land (ptag (aget a k)) MG_REQ) 0) as [E1|N1].
    + exists b. split; [reflexivity|]. apply revived_ext with (1 := R). intros i. split; [intros [|(_ & _ & X)]; [auto|contradiction]|auto].
    + destruct (revived_add S1 (fun i => S1 i \/ i = k) a b k R ltac:(lia) (fun i => iff_refl _)) as (b' & E & R6).
      exists b'. split; [exact E|]. apply revived_ext with (1 := R6). intros i. intuition.
  - exists b. split; [reflexivity|]. apply revived_ext with (1 := R). intros i. split; [intros [|(_ & X & _)]; [auto|contradiction]|auto].
Qed.

(** ** Cleaning *)
Lemma clean_pts_ok fuel : forall s0 : vpool, 0 <= vnp s0 < alen (vpt s0) -> (Z.to_nat (vnp s0) < fuel)%nat ->
  (forall i, 1 <= i <= vnp s0 -> 0 <= pxp (aget (vpt s0) i) <= vxmax s0) ->
  exists s', clean_pts fuel s0 = Ret s' /\ 0 <= vnp s' <= vnp s0 /\ alen (vpt s') = alen (vpt s0) /\
    (0 < vnp s' -> vok (aget (vpt s') (vnp s')) = true) /\
    (forall i, vnp s' < i <= vnp s0 -> vok (aget (vpt s0) i) = false /\ vok (aget (vpt s') i) = false) /\
    (forall i, i <= vnp s' \/ vnp s0 < i -> i <> 0 -> aget (vpt s') i = aget (vpt s0) i).
Proof.
  induction fuel as [|fuel IH]; intros s0 Hn Hf Hx; [lia|]. cbn [clean_pts].
  rewrite rd_ok by lia. cbn [bind].
  assert (Stop : exists s', Ret s0 = Ret s' /\ 0 <= vnp s' <= vnp s0 /\ alen (vpt s') = alen (vpt s0) /\
    (vnp s' = vnp s0) /\ (forall i, vnp s' < i <= vnp s0 -> vok (aget (vpt s0) i) = false /\ vok (aget (vpt s') i) = false) /\
    (forall i, i <= vnp s' \/ vnp s0 < i -> i <> 0 -> aget (vpt s') i = aget (vpt s0) i)).
  { exists s0. split; [reflexivity|]. split; [lia|]. split; [reflexivity|]. split; [reflexivity|]. split; [intros; lia|reflexivity]. }
  destruct (vok (aget (vpt s0) (vnp s0))) eqn:V.
  - exists s0. split; [reflexivity|]. split; [lia|]. split; [reflexivity|]. split; [auto|]. split; [intros; lia|reflexivity].
  - destruct (Z.eqb_spec (vnp s0) 0) as [E0|N0].
    + exists s0. split; [reflexivity|]. split; [lia|]. split; [reflexivity|]. split; [lia|]. split; [intros; lia|reflexivity].
    + unfold delPt. rewrite rd_ok by lia. cbn [bind].
      assert (As : (if pxp (aget (vpt s0) (vnp s0)) =? 0 then Ret tt else c_assert ((0 <=? pxp (aget (vpt s0) (vnp s0))) && (pxp (aget (vpt s0) (vnp s0)) <=? vxmax s0))) = Ret tt).
      { destruct (pxp (aget (vpt s0) (vnp s0)) =? 0); [reflexivity|]. specialize (Hx (vnp s0) ltac:(lia)).
        destruct (Z.leb_spec 0 (pxp (aget (vpt s0) (vnp s0)))), (Z.leb_spec (pxp (aget (vpt s0) (vnp s0))) (vxmax s0)); try lia. reflexivity. }
      rewrite As. cbn [bind]. rewrite wr_ok by lia. cbn [bind]. rewrite Z.eqb_refl.
      set (b := mkArr _ _). set (z := mkP 0 0 0 (vnil s0) 0 MG_NUL) in *.
      assert (Hb : forall i, aget b i = if i =? vnp s0 then z else aget (vpt s0) i) by reflexivity.
      assert (Hz : vok z = false) by reflexivity.
      destruct (trim_spec _ vok b (S (Z.to_nat (vnp s0))) (vnp s0)) as (m & T1 & T2 & T3 & T4); [unfold b; cbn [alen]; lia|lia|].
      rewrite T1. cbn [bind].
      assert (Hm : m < vnp s0).
      { destruct (Z.lt_ge_cases m (vnp s0)); [assumption|]. assert (m = vnp s0) as -> by lia.
        assert (X : vok (aget b (vnp s0)) = true) by (first [apply T3|apply T4]; lia). rewrite Hb, Z.eqb_refl, Hz in X. discriminate. }
      set (s1 := mkV m (vnp s0) (vmax s0) b (vxp s0) (vxmax s0)).
      destruct (IH s1) as (s' & E & R1 & R2 & R3 & R4 & R5).
      { cbn [vnp vpt s1]. unfold b; cbn [alen]. lia. }
      { cbn [vnp s1]. lia. }
      { cbn [vnp vpt vxmax s1]. intros i Hi. rewrite Hb. destruct (Z.eqb_spec i (vnp s0)); [lia|]. apply Hx. lia. }
      cbn [vnp vpt s1] in R1, R2, R4, R5.
      assert (Dead : forall i, m < i <= vnp s0 -> vok (aget (vpt s0) i) = false /\ vok (aget b i) = false).
      { intros i Hi. rewrite Hb. destruct (Z.eqb_spec i (vnp s0)) as [->|Ni]; [split; [exact V|exact Hz]|].
        assert (X : vok (aget b i) = false) by (first [apply T3|apply T4]; lia).
        rewrite Hb in X. destruct (Z.eqb_spec i (vnp s0)); [lia|]. auto. }
      exists s'. split; [exact E|]. split; [lia|]. split; [rewrite R2; reflexivity|]. split; [exact R3|]. split.
      * intros i Hi. destruct (Z.le_gt_cases i m).
        -- destruct (R4 i ltac:(lia)) as [R6 R7]. split; [|exact R7]. rewrite Hb in R6. destruct (Z.eqb_spec i (vnp s0)); [lia|exact R6].
        -- destruct (Dead i ltac:(lia)) as [D1 D2]. split; [exact D1|]. rewrite R5 by (lia || (right; lia)). exact D2.
      * intros i Hi Hi0. rewrite R5 by lia. rewrite Hb. destruct (Z.eqb_spec i (vnp s0)); [lia|reflexivity].
Qed.

(** C28: keeping one subdomain never fails on a valid mesh and
    - the elements of the chosen reference stay in place, unchanged, and no other
      element remains;
    - a kept element is linked to the neighbours that are kept, at the same face,
      and to no other; the links of a deleted element are cleared;
    - a vertex remains exactly when a kept element or a prism uses it, or when it
      is required and no element used it; what remains keeps its coordinates,
      reference, boundary index and tag. *)
Theorem C28_keep_one : nsd <> 0 -> exists s' e', keep_only1 nsd s e pr npr = Ret (s', e') /\
  (0 <= ene e' <= ene e) /\
  (forall k, 1 <= k <= ene e -> (kept_t k -> k <= ene e' /\ aget (etet e') k = T k) /\
                                (~ kept_t k -> eok (aget (etet e') k) = false)) /\
  match eadj e, eadj e' with
  | None, None => True
  | Some a, Some a' => alen a' = alen a /\ forall k i, alive_t k -> 0 <= i < 4 ->
      (~ kept_t k -> face a' k i = 0) /\
      (kept_t k -> (kept_t (face a k i / 4) -> face a' k i = face a k i) /\ (~ kept_t (face a k i / 4) -> face a' k i = 0))
  | _, _ => False
  end /\
  (0 <= vnp s' <= vnp s) /\ (0 < vnp s' -> vok (aget (vpt s') (vnp s')) = true) /\
  (forall i, 1 <= i <= vnp s ->
     (vok (aget (vpt s') i) = true <-> used_v i \/ isolated_v i) /\
     (used_v i \/ isolated_v i -> i <= vnp s' /\
        pc (aget (vpt s') i) = pc (P i) /\ pref (aget (vpt s') i) = pref (P i) /\ pxp (aget (vpt s') i) = pxp (P i) /\
        (vok (P i) = true -> ptag (aget (vpt s') i) = ptag (P i)))).
Proof.
  intros Hd. unfold keep_only1. destruct (Z.eqb_spec nsd 0); [contradiction|].
  destruct mark_unused_ok as (a0 & E0 & L0 & O0 & M0). rewrite E0. cbn [bind].
  change (vpt (set_vpt s a0)) with a0.
  pose proof (m_np OK) as Hnp. pose proof (m_ne OK) as Hne. pose proof (m_pr OK) as Hpr.
  destruct (loop_step 1 a0 a0 e (S (Z.to_nat (ene e)))) as (a & e' & E1 & I).
  { assert (G1 : forall j, gone 1 j = false).
    { intros j. unfold gone. destruct (Z.ltb_spec j 1), (Z.leb_spec 1 j); try lia; reflexivity. }
    constructor; auto.
    - lia.
    - intros; lia.
    - intros j Hj. rewrite G1. split; [discriminate|reflexivity].
    - destruct (eadj e) as [b|] eqn:Eb; [|exact I]. split; [reflexivity|]. intros j i Hj Hi. rewrite G1. unfold cut. rewrite G1.
      destruct (Z.eqb_spec (face b j i) 0); auto.
    - intros i. split; [apply same_refl|reflexivity].
    - intros i (j & Hj & _). lia. }
  { exact L0. }
  { lia. }
  { lia. }
  rewrite E1. cbn [bind].
  destruct I as [(Ll1 & Ll2 & Ll3) Ln Lend Lt Ladj Lp Lf Lnf].
  assert (Gd : forall j, alive_t j -> (gone (ene e + 1) j = true <-> ~ kept_t j)).
  { intros j [Hj Ej]. unfold gone, kept_t, alive_t. rewrite Ej.
    rewrite (proj2 (Z.ltb_lt j (ene e + 1))), (proj2 (Z.leb_le 1 j)) by lia. cbn [andb]. rewrite negb_true_iff, Z.eqb_neq. split; [intros X [_ Y]; auto|]. intros X Y. apply X. auto. }
  assert (Gk : forall j, kept_t j -> gone (ene e + 1) j = false).
  { intros j K. destruct (gone (ene e + 1) j) eqn:G; [|reflexivity]. apply Gd in G; [contradiction|apply K]. }
  assert (Kdec : forall j, kept_t j \/ ~ kept_t j).
  { intros j. unfold kept_t, alive_t. destruct (eok (T j)); [|right; intros [[_ X] _]; discriminate].
    assert (D : 1 <= j <= ene e \/ ~ 1 <= j <= ene e) by lia. destruct D; [|tauto].
    destruct (Z.eq_dec (tref (T j)) nsd); tauto. }
  assert (Tk : forall k, 1 <= k <= ene e -> (kept_t k -> k <= ene e' /\ aget (etet e') k = T k) /\ (~ kept_t k -> eok (aget (etet e') k) = false)).
  { intros k Hk. destruct (Lt k Hk) as [X Y]. split.
    - intros K. pose proof (Y (Gk k K)) as Q. split; [|exact Q].
      destruct (Z.le_gt_cases k (ene e')); [assumption|]. specialize (Lend k ltac:(lia)). rewrite Q in Lend.
      destruct K as [[_ K] _]. congruence.
    - intros K. destruct (eok (T k)) eqn:Ek.
      + apply X. apply Gd; [split; auto|exact K].
      + destruct (gone (ene e + 1) k) eqn:G; [apply X; reflexivity|]. rewrite Y by reflexivity. exact Ek. }
  (* vertices *)
  unfold mark_used. change (vnp (set_vpt (set_vpt s a0) a)) with (vnp s). change (vpt (set_vpt (set_vpt s a0) a)) with a.
  assert (La : alen a = alen (vpt s)) by congruence.
  destruct (mark_points_ok a La) as (b1 & F1 & R1). rewrite F1. cbn [bind].
  match type of R1 with revived ?S _ _ => set (S1 := S) in R1 end.
  destruct (revived_loop (ene e') (fun k a => t <- rd (etet e') k ;;
         if negb (eok t) then Ret a else revive_all a [v0 t; v1 t; v2 t; v3 t])
      (fun k j => eok (aget (etet e') k) = true /\ In j [v0 (aget (etet e') k); v1 (aget (etet e') k); v2 (aget (etet e') k); v3 (aget (etet e') k)])
      a b1 S1) as (b2 & F2 & R2); [lia|exact R1| |].
  { intros S2 b k Hk R HS. rewrite rd_ok by lia. cbn [bind]. destruct (eok (aget (etet e') k)) eqn:Ek; cbn [negb].
    - assert (K : kept_t k). { destruct (Kdec k) as [K|K]; [exact K|]. destruct (Tk k ltac:(lia)) as [_ Y]. rewrite Y in Ek by exact K. discriminate. }
      destruct (Tk k ltac:(lia)) as [X _]. destruct (X K) as [_ Q]. rewrite Q.
      destruct (revived_all [v0 (T k); v1 (T k); v2 (T k); v3 (T k)] S2 (fun j => S2 j \/ In j [v0 (T k); v1 (T k); v2 (T k); v3 (T k)]) a b R) as (b' & E & R').
      + intros x Hx. pose proof (m_tet OK k x (proj1 K)) as B. rewrite La. assert (1 <= x <= vnp s); [|lia]. apply B.
        unfold is_vertex. cbn [In] in Hx. intuition.
      + reflexivity.
      + exists b'. split; [exact E|]. apply revived_ext with (1 := R'). intros j. intuition.
    - exists b. split; [reflexivity|]. apply revived_ext with (1 := R). intros j. intuition congruence. }
  rewrite F2. cbn [bind].
  match type of R2 with revived ?S _ _ => set (S2 := S) in R2 end.
  destruct (revived_loop npr (fun k a => l <- rd pr k ;; if negb (prok l) then Ret a else revive_all a l)
      (fun k j => prok (aget pr k) = true /\ In j (aget pr k)) a b2 S2) as (b3 & F3 & R3); [lia|exact R2| |].
  { intros S3 b k Hk R HS. rewrite rd_ok by lia. cbn [bind]. destruct (prok (aget pr k)) eqn:Ek; cbn [negb].
    - destruct (revived_all (aget pr k) S3 (fun j => S3 j \/ In j (aget pr k)) a b R) as (b' & E & R').
      + intros x Hx. pose proof (m_prv OK k x Hk Ek Hx). lia.
      + reflexivity.
      + exists b'. split; [exact E|]. apply revived_ext with (1 := R'). intros j. intuition.
    - exists b. split; [reflexivity|]. apply revived_ext with (1 := R). intros j. intuition congruence. }
  rewrite F3. cbn [bind].
  match type of R3 with revived ?S _ _ => set (S3 := S) in R3 end.
  destruct R3 as [L3 R3].
  change (set_vpt (set_vpt (set_vpt s a0) a) b3) with (set_vpt s b3).
  (* state of each vertex before the cleaning *)
  assert (St : forall i, 1 <= i <= vnp s -> same_pt (aget b3 i) (P i) /\
     (S3 i -> vok (aget b3 i) = true /\ (vok (P i) = true -> ptag (aget b3 i) = ptag (P i))) /\ (~ S3 i -> vok (aget b3 i) = false)).
  { intros i Hi. destruct (R3 i) as (Q1 & Q2 & Q3 & Q4 & _). destruct (Lp i) as [Q5 Q6]. destruct (M0 i Hi) as (Q7 & Q8 & Q9).
    pose proof (m_tag OK i Hi) as Ht. destruct (tag_facts _ Ht) as (T1 & T2 & T3 & T4 & _ & _).
    split; [eapply same_trans; [exact Q1|]; eapply same_trans; [exact Q5|exact Q7]|].
    unfold vok in *. split.
    - intros HS. rewrite (Q3 HS), Q6. destruct (Z.ltb_spec (ptag (P i)) MG_NUL) as [V|V].
      + rewrite (proj2 (Q8 eq_refl)), T1 by exact V. split; [apply Z.ltb_lt; exact V|reflexivity].
      + rewrite Q9 by reflexivity. split; [apply Z.ltb_lt; apply T3|discriminate].
    - intros HS. rewrite (Q4 HS), Q6. apply Z.ltb_ge. destruct (Z.ltb_spec (ptag (P i)) MG_NUL) as [V|V].
      + rewrite (proj2 (Q8 eq_refl)). apply T2.
      + rewrite Q9 by reflexivity. exact V. }
  assert (HS : forall i, 1 <= i <= vnp s -> (S3 i <-> used_v i \/ isolated_v i)).
  { intros i Hi. unfold S3, S2, S1, used_v, isolated_v. destruct (M0 i Hi) as (_ & Q8 & Q9). destruct (Lp i) as [_ Q6].
    pose proof (m_tag OK i Hi) as Ht. destruct (tag_facts _ Ht) as (_ & _ & _ & _ & T5 & _).
    assert (Rq : Z.land (ptag (aget a i)) MG_REQ = Z.land (ptag (P i)) MG_REQ).
    { rewrite Q6. destruct (vok (P i)) eqn:V; [rewrite (proj2 (Q8 eq_refl)); exact T5|rewrite Q9 by reflexivity; reflexivity]. }
    split.
    - intros [[[[]|(k & Hk & -> & Fl & Rr)]|(k & Hk & Ek & Hin)]|(k & Hk & Ek & Hin)].
      + right. rewrite <- Rq. split; [exact Rr|].
        assert (NV : forall j, alive_t j -> ~ is_vertex (T j) k).
        { intros j Al V. rewrite Lf in Fl; [discriminate|]. exists j. destruct Al. split; [lia|]. split; [split; auto|exact V]. }
        split; [exact NV|]. rewrite Lnf in Fl by (intros j _; apply NV).
        destruct (vok (P k)) eqn:V; [auto|]. right. rewrite Q9 in Fl by reflexivity. exact Fl.
      + left. left. exists k.
        assert (K : kept_t k). { destruct (Kdec k) as [K|K]; [exact K|]. destruct (Tk k ltac:(lia)) as [_ Y]. rewrite Y in Ek by exact K. discriminate. }
        split; [exact K|]. destruct (Tk k ltac:(lia)) as [X _]. destruct (X K) as [_ Q]. rewrite Q in Hin. unfold is_vertex. cbn [In] in Hin. intuition.
      + left. right. exists k. auto.
    - intros [[(k & K & V)|(k & Hk & Ek & Hin)]|(Rr & NV & Fl)].
      + left. right. exists k. destruct (Tk k ltac:(apply K)) as [X _]. destruct (X K) as [Q0 Q]. split; [split; [apply K|exact Q0]|].
        rewrite Q. split; [apply K|]. unfold is_vertex in V. cbn [In]. intuition.
      + right. exists k. auto.
      + left. left. right. exists i. split; [exact Hi|]. split; [reflexivity|]. rewrite Rq. split; [|exact Rr].
        rewrite Lnf by (intros j _; apply NV). destruct (vok (P i)) eqn:V; [apply Q8; reflexivity|].
        rewrite Q9 by reflexivity. destruct Fl; [discriminate|assumption]. }
  destruct (clean_pts_ok (S (Z.to_nat (vnp s))) (set_vpt s b3)) as (s' & E3 & C1 & C2 & C3 & C4 & C5).
  { cbn [vnp vpt set_vpt]. lia. }
  { cbn [vnp set_vpt]. lia. }
  { cbn [vnp vpt vxmax set_vpt]. intros i Hi. destruct (St i Hi) as [(_ & _ & -> & _) _]. apply (m_xp OK). exact Hi. }
  cbn [vnp vpt set_vpt] in C1, C2, C4, C5. rewrite E3. cbn [bind].
  exists s', e'. split; [reflexivity|]. split; [lia|]. split; [exact Tk|]. split.
  { destruct (eadj e) as [b0|] eqn:Eb, (eadj e') as [b|]; auto. destruct Ladj as [A1 A2]. split; [exact A1|].
    destruct (m_adj OK b0 Eb) as [_ Ha]. intros k i Hk Hi. rewrite A2 by auto. split.
    - intros K. apply Gd in K; [|exact Hk]. rewrite K. reflexivity.
    - intros K. rewrite (Gk k K). unfold cut, nxt. destruct (Z.eqb_spec (face b0 k i) 0) as [E|N]; [rewrite E; auto|]. split; intros Kn.
      + rewrite (Gk _ Kn). reflexivity.
      + destruct (Ha k i Hk Hi) as [Z0|(j & iv & X1 & X2 & X3 & X4 & X5)]; [contradiction|].
        rewrite X1 in *. destruct (div4 j iv X2) as [D1 D2]. rewrite D1 in *. apply Gd in Kn; [|exact X4]. rewrite Kn. reflexivity. }
  split; [lia|]. split; [exact C3|].
  intros i Hi. rewrite <- (HS i Hi). destruct (St i Hi) as (Q1 & Q2 & Q3).
  destruct (Z.le_gt_cases i (vnp s')) as [Le|Gt].
  - rewrite C5 by lia. split.
    + split; [|intros X; apply Q2; exact X]. intros V.
      assert (Dec : S3 i \/ ~ S3 i).
      { apply R3. }
      destruct Dec as [X|X]; [exact X|]. rewrite (Q3 X) in V. discriminate.
    + intros X. split; [exact Le|]. destruct Q1 as (Q4 & Q5 & Q6 & _). repeat split; auto. apply Q2. exact X.
  - destruct (C4 i ltac:(lia)) as [C6 C7]. rewrite C7. split; [split; [discriminate|]|]; intros X.
    + destruct (Q2 X) as [Q4 _]. congruence.
    + destruct (Q2 X) as [Q4 _]. congruence.
Qed.
End Sub.

(** A tetrahedron of reference 2 between two of reference 1, the last one ending
    the list, a prism on vertices 1 2 3 and 7 8 9, a required isolated vertex 10, an
    isolated vertex 11 that is not required. *)
Definition ex_s : vpool := mkV 11 0 11
  (aof point0 [mkP 10 0 0 0 0 0; mkP 20 0 1 0 0 16; mkP 30 0 2 0 0 16; mkP 40 0 0 0 0 0; mkP 50 0 0 0 0 0; mkP 60 5 0 0 0 0;
               mkP 70 0 0 0 0 0; mkP 80 0 0 0 0 0; mkP 90 0 0 0 0 0; mkP 100 0 0 0 0 MG_REQ; mkP 110 0 0 0 0 0]) 2 2.
Definition ex_e : epool := mkE 3 0 3
  (aof tetra0 [mkT 1 2 3 4 1 0 0 0; mkT 2 3 4 5 2 0 0 0; mkT 3 4 5 6 1 0 0 0])
  (Some (aof 0 [4 * 2 + 3; 0; 0; 0; 4 * 3 + 3; 0; 0; 4 * 1 + 0; 0; 0; 0; 4 * 2 + 0; 0; 0; 0; 0])).
Definition ex_pr : arr (list Z) := aof [] [[1; 2; 3; 7; 8; 9]].

Example C28_case : mesh_ok ex_s ex_e ex_pr 1 /\
  match keep_only1 1 ex_s ex_e ex_pr 1 with
  | Ret (s', e') => Some (vnp s', map (fun i => (pc (aget (vpt s') i), vok (aget (vpt s') i))) (zrange 1 11), ene e',
                     map (fun k => eok (aget (etet e') k)) (zrange 1 3), option_map (fun a => map (aget a) (zrange 1 12)) (eadj e'))
  | Stuck => None
  end = Some (10, [(10, true); (20, true); (30, true); (40, true); (50, true); (60, true); (70, true); (80, true); (90, true); (100, true); (0, false)],
              3, [true; false; true], Some [0; 0; 0; 0; 0; 0; 0; 0; 0; 0; 0; 0]).
Proof.
  split; [|vm_compute; reflexivity].
  assert (R : forall k, 1 <= k <= 3 -> k = 1 \/ k = 2 \/ k = 3) by lia.
  assert (R11 : forall i, 1 <= i <= 11 -> In i (zrange 1 11)) by (intros; apply in_zrange; lia).
  constructor.
  - cbn. lia.
  - intros i Hi. apply R11 in Hi. cbn in Hi. repeat destruct Hi as [<-|Hi]; try contradiction; vm_compute; split; congruence.
  - intros i Hi. apply R11 in Hi. cbn in Hi. repeat destruct Hi as [<-|Hi]; try contradiction; vm_compute; split; congruence.
  - cbn. lia.
  - cbn. lia.
  - intros k x [Hk _] V. change (1 <= x <= 11). cbn in Hk.
    destruct (R k Hk) as [->|[->| ->]]; vm_compute in V; repeat destruct V as [->|V]; subst; lia.
  - cbn. lia.
  - intros k x Hk _ V. change (1 <= x <= 11). assert (k = 1) as -> by lia. vm_compute in V.
    repeat destruct V as [<-|V]; try contradiction; lia.
  - intros a E. injection E as <-. split; [reflexivity|]. intros k i [Hk _] Hi. cbn in Hk.
    assert (i = 0 \/ i = 1 \/ i = 2 \/ i = 3) as Xi by lia.
    destruct (R k Hk) as [->|[->| ->]], Xi as [->|[->|[->| ->]]]; try (left; reflexivity);
      right; [exists 2, 3|exists 3, 3|exists 1, 0|exists 2, 0]; (split; [reflexivity|]); (split; [lia|]); (split; [lia|]);
      (split; [split; [cbn; lia|reflexivity]|reflexivity]).
Qed.

Print Assumptions C28_keep_one.
