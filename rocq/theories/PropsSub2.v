(** C28 for triangles (Mmg2d and Mmgs): keeping one subdomain. *)
From Coq Require Import ZArith List Bool Lia.
From Verif Require Import CBase Chain MeshModel PoolModel PoolSpec PoolTet SubModel PropsSub SubModel2.
Import ListNotations.
Open Scope Z_scope.

(** ** Statement *)

Definition is_vtx (t : tri) (x : Z) : Prop := x = w0 t \/ x = w1 t \/ x = w2 t.

(** Link of edge [i] of element [k]: 0 or [4*j+iv]. *)
Definition edge (a : arr Z) (k i : Z) : Z := aget a (3 * (k - 1) + 1 + i).

Section Sub.
Context (nsd : Z) (s : vpool) (e : tpool) (qd : arr (list Z)) (nq : Z).

Let P i := aget (vpt s) i.
Let T k := aget (wtri e) k.
Definition alive_w (k : Z) : Prop := 1 <= k <= wnt e /\ wok (T k) = true.
Definition kept_w (k : Z) : Prop := alive_w k /\ wref (T k) = nsd.

(** The adjacency joins live elements, in both directions, and no element to itself. *)
Definition wadj_ok (a : arr Z) : Prop :=
  alen a = 3 * wmax e + 5 /\
  forall k i, alive_w k -> 0 <= i < 3 ->
    edge a k i = 0 \/
    exists j iv, edge a k i = 3 * j + iv /\ 0 <= iv < 3 /\ j <> k /\ alive_w j /\ edge a j iv = 3 * k + i.

(** A mesh: vertices of the elements are in range, tags have 16 bits. *)
Record wmesh_ok : Prop := {
  m_np : 0 <= vnp s < alen (vpt s);
  m_tag : forall i, 1 <= i <= vnp s -> 0 <= ptag (P i) < 65536;
  m_ne : 0 <= wnt e < alen (wtri e);
  m_emax : wnt e <= wmax e;
  m_tet : forall k x, alive_w k -> is_vtx (T k) x -> 1 <= x <= vnp s;
  m_qd : 0 <= nq < alen qd;
  m_qdv : forall k x, 1 <= k <= nq -> prok (aget qd k) = true -> In x (aget qd k) -> 1 <= x <= vnp s;
  m_adj : forall a, wadj e = Some a -> wadj_ok a }.

(** Vertices that remain: used by a kept element or a quadrilateral, or required and
    used by no element at all (a vertex that was already unused comes back only
    if its scratch field [flag] is zero). *)
Definition used_w (x : Z) : Prop :=
  (exists k, kept_w k /\ is_vtx (T k) x) \/ (exists k, 1 <= k <= nq /\ prok (aget qd k) = true /\ In x (aget qd k)).
Definition isolated_w (x : Z) : Prop :=
  Z.land (ptag (P x)) MG_REQ <> 0 /\ (forall k, alive_w k -> ~ is_vtx (T k) x) /\ (vok (P x) = true \/ pflag (P x) = 0).

Hypothesis OK : wmesh_ok.

(** ** Flags set by the loop *)

Lemma tv_vertex t i : 0 <= i < 3 -> is_vtx t (wv t i).
Proof.
  intros H. unfold is_vtx, wv. assert (i = 0 \/ i = 1 \/ i = 2) as [->|[->| ->]] by lia; cbn; auto.
Qed.
Lemma vertex_tv t x : is_vtx t x -> exists i, 0 <= i < 3 /\ wv t i = x.
Proof. intros [->|[->| ->]]; [exists 0|exists 1|exists 2]; split; auto; lia. Qed.

Lemma mark_unused_ok : exists a, mark_unused s = Ret (set_vpt s a) /\ alen a = alen (vpt s) /\
  (forall i, ~ 1 <= i <= vnp s -> aget a i = P i) /\
  (forall i, 1 <= i <= vnp s -> same_pt (aget a i) (P i) /\
     (vok (P i) = true -> pflag (aget a i) = 0 /\ ptag (aget a i) = Z.lor (ptag (P i)) MG_NUL) /\
     (vok (P i) = false -> aget a i = P i)).
Proof.
  destruct OK as [H1 H2 _ _ _ _ _ _]. unfold mark_unused.
  destruct (@for_range_inv (arr point) (fun k a => alen a = alen (vpt s) /\
      (forall i, ~ 1 <= i < k -> aget a i = P i) /\
      (forall i, 1 <= i < k -> same_pt (aget a i) (P i) /\
        (vok (P i) = true -> pflag (aget a i) = 0 /\ ptag (aget a i) = Z.lor (ptag (P i)) MG_NUL) /\
        (vok (P i) = false -> aget a i = P i)))
     (fun k a => p <- rd a k ;;
         if negb (vok p) then Ret a else wr a k (with_flag p 0 (Z.lor (ptag p) MG_NUL))) 1 (vnp s) (vpt s)) as (a & E & L & F & G).
  - lia.
  - split; [reflexivity|]. split; [reflexivity|]. intros; lia.
  - intros k a Hk (L & F & G). rewrite rd_ok by lia. cbn [bind].
    rewrite (F k) by lia. destruct (vok (P k)) eqn:V; cbn [negb].
    + rewrite wr_ok by lia. eexists. split; [reflexivity|]. cbn [alen aget]. split; [exact L|]. split.
      * intros i Hi. rewrite upd_other by lia. apply F. lia.
      * intros i Hi. unfold upd. destruct (Z.eqb_spec i k) as [->|]; [|apply G; lia].
        split; [apply same_flag, same_refl|]. split; [intros _; split; reflexivity|congruence].
    + exists a. split; [reflexivity|]. split; [exact L|]. split; [intros; apply F; lia|].
      intros i Hi. destruct (Z.eq_dec i k) as [->|]; [|apply G; lia].
      rewrite F by lia. split; [apply same_refl|]. split; [congruence|reflexivity].
  - rewrite E. cbn [bind]. exists a. split; [reflexivity|]. split; [exact L|]. split; intros i Hi; [apply F|apply G]; lia.
Qed.

Lemma flag_vertices3_ok a t : (forall x, is_vtx t x -> 0 <= x < alen a) ->
  exists a', flag_vertices3 a t = Ret a' /\ alen a' = alen a /\
    (forall i, ~ is_vtx t i -> aget a' i = aget a i) /\
    (forall i, is_vtx t i -> same_pt (aget a' i) (aget a i) /\ pflag (aget a' i) = 1 /\ ptag (aget a' i) = ptag (aget a i)).
Proof.
  intros Hb. unfold flag_vertices3.
  destruct (@for_range_inv (arr point) (fun k b => alen b = alen a /\
      (forall i, ~ is_vtx t i -> aget b i = aget a i) /\
      (forall i, same_pt (aget b i) (aget a i) /\ ptag (aget b i) = ptag (aget a i)) /\
      (forall j, 0 <= j < k -> pflag (aget b (wv t j)) = 1))
     (fun i a => p <- rd a (wv t i) ;; wr a (wv t i) (with_flag p 1 (ptag p))) 0 2 a) as (b & E & L & F & G & Fl).
  - lia.
  - split; [reflexivity|]. split; [reflexivity|]. split; [split; [apply same_refl|reflexivity]|]. intros; lia.
  - intros k b Hk (L & F & G & Fl). pose proof (Hb _ (tv_vertex t k ltac:(lia))) as B.
    rewrite rd_ok by lia. cbn [bind]. rewrite wr_ok by lia. eexists. split; [reflexivity|].
    cbn [alen aget]. split; [exact L|]. split; [|split].
    + intros i Hi. rewrite upd_other; [apply F; exact Hi|]. intros ->. apply Hi. apply tv_vertex. lia.
    + intros i. unfold upd. destruct (Z.eqb_spec i (wv t k)) as [->|]; [|apply G].
      destruct (G (wv t k)) as [G1 G2]. split; [apply same_flag; exact G1|exact G2].
    + intros j Hj. unfold upd. destruct (Z.eqb_spec (wv t j) (wv t k)); [reflexivity|]. apply Fl.
      destruct (Z.eq_dec j k) as [->|]; [congruence|lia].
  - exists b. split; [exact E|]. split; [exact L|]. split; [exact F|].
    intros i Hi. destruct (G i) as [G1 G2]. split; [exact G1|]. split; [|exact G2].
    destruct (vertex_tv t i Hi) as (j & Hj & <-). apply Fl. lia.
Qed.

(** ** The element loop *)

(** Elements already deleted before turn [k]. *)
Definition gone3 (k j : Z) : bool := (j <? k) && (1 <=? j) && wok (T j) && negb (wref (T j) =? nsd).
Definition nxt3 (x : Z) : Z := x / 3.

(** Face value after the deletions. *)
Definition cut3 (D : Z -> bool) (x : Z) : Z := if x =? 0 then 0 else if D (nxt3 x) then 0 else x.

Record loop_inv3 (k : Z) (a0 : arr point) (a : arr point) (f : tpool) : Prop := {
  l_len : alen a = alen a0 /\ alen (wtri f) = alen (wtri e) /\ wmax f = wmax e;
  l_ne : 0 <= wnt f <= wnt e;
  l_end : forall j, wnt f < j <= wnt e -> wok (aget (wtri f) j) = false;
  l_tet : forall j, 1 <= j <= wnt e -> (gone3 k j = true -> wok (aget (wtri f) j) = false) /\
                                       (gone3 k j = false -> aget (wtri f) j = T j);
  l_adj : match wadj e, wadj f with
          | None, None => True
          | Some b0, Some b => alen b = alen b0 /\
              forall j i, alive_w j -> 0 <= i < 3 -> edge b j i = if gone3 k j then 0 else cut3 (gone3 k) (edge b0 j i)
          | _, _ => False
          end;
  l_pt : forall i, same_pt (aget a i) (aget a0 i) /\ ptag (aget a i) = ptag (aget a0 i);
  l_flag : forall i, (exists j, 1 <= j < k /\ alive_w j /\ is_vtx (T j) i) -> pflag (aget a i) = 1;
  l_noflag : forall i, (forall j, 1 <= j < k -> alive_w j -> ~ is_vtx (T j) i) -> pflag (aget a i) = pflag (aget a0 i) }.

Lemma gone_S k j : gone3 (k + 1) j = gone3 k j || ((j =? k) && (1 <=? j) && wok (T j) && negb (wref (T j) =? nsd)).
Proof.
  unfold gone3. destruct (Z.ltb_spec j (k + 1)), (Z.ltb_spec j k), (Z.eqb_spec j k); try lia; cbn [andb orb]; rewrite ?orb_false_r, ?orb_true_r; try reflexivity.
Qed.

Lemma div3 j iv : 0 <= iv < 3 -> (3 * j + iv) / 3 = j /\ (3 * j + iv) mod 3 = iv.
Proof.
  intros H. split.
  - symmetry. apply Z.div_unique with iv; lia.
  - symmetry. apply Z.mod_unique with j; lia.
Qed.

Lemma clear_adj3_ok (adj : option (arr Z)) i : 1 <= i -> (forall a, adj = Some a -> 3 * i < alen a) ->
  exists adj', clear_adj3 adj i = Ret adj' /\
   match adj, adj' with
   | None, None => True
   | Some a, Some b => alen b = alen a /\ forall k, aget b k = if (3 * (i - 1) + 1 <=? k) && (k <=? 3 * (i - 1) + 3) then 0 else aget a k
   | _, _ => False end.
Proof.
  intros Hi Ha. destruct adj as [a|]; cbn [clear_adj3]; [|exists None; auto].
  specialize (Ha a eq_refl).
  destruct (@for_range_inv (arr Z) (fun j b => alen b = alen a /\
      forall k, aget b k = if (3 * (i - 1) + 1 <=? k) && (k <? j) then 0 else aget a k)
     (fun k a => wr a k 0) (3 * (i - 1) + 1) (3 * (i - 1) + 3) a) as [b [E [L H]]].
  - lia.
  - split; [reflexivity|]. intros k. destruct (Z.leb_spec (3 * (i - 1) + 1) k), (Z.ltb_spec k (3 * (i - 1) + 1)); reflexivity || lia.
  - intros j b Hj [L H]. rewrite wr_ok by lia. eexists. split; [reflexivity|]. cbn [alen aget]. split; [exact L|].
    intros k. unfold upd. rewrite H. destruct (Z.eqb_spec k j) as [->|].
    + destruct (Z.leb_spec (3 * (i - 1) + 1) j), (Z.ltb_spec j (j + 1)); reflexivity || lia.
    + destruct (Z.leb_spec (3 * (i - 1) + 1) k), (Z.ltb_spec k (j + 1)), (Z.ltb_spec k j); reflexivity || lia.
  - rewrite E. cbn [bind]. exists (Some b). split; [reflexivity|]. split; [exact L|].
    intros k. rewrite H. destruct (Z.ltb_spec k (3 * (i - 1) + 3 + 1)), (Z.leb_spec k (3 * (i - 1) + 3)); try lia; reflexivity.
Qed.

Lemma unlink3_ok b0 b k : wadj e = Some b0 -> alive_w k -> alen b = alen b0 ->
  (forall j i, alive_w j -> 0 <= i < 3 -> edge b j i = if gone3 k j then 0 else cut3 (gone3 k) (edge b0 j i)) ->
  exists b', unlink3 (Some b) k = Ret (Some b') /\ alen b' = alen b0 /\
    (forall j i, alive_w j -> j <> k -> 0 <= i < 3 ->
       edge b' j i = if gone3 k j then 0 else cut3 (fun x => gone3 k x || (x =? k)) (edge b0 j i)).
Proof.
  intros Eb Ak L Hb. destruct (m_adj OK b0 Eb) as [La Ha]. pose proof (m_emax OK) as Em. unfold unlink3.
  assert (Gk : gone3 k k = false) by (unfold gone3; rewrite Z.ltb_irrefl; reflexivity).
  destruct (@for_range_inv (arr Z) (fun c d => alen d = alen b0 /\
      (forall i, 0 <= i < 3 -> edge d k i = edge b k i) /\
      (forall j i, alive_w j -> j <> k -> 0 <= i < 3 ->
        edge d j i = if gone3 k j then 0 else
                     if (nxt3 (edge b0 j i) =? k) && (edge b0 j i mod 3 <? c) then 0 else cut3 (gone3 k) (edge b0 j i)))
     (fun i a => x <- rd a (3 * (k - 1) + 1 + i) ;;
              if x =? 0 then Ret a else wr a (3 * (Z.quot x 3 - 1) + 1 + Z.rem x 3) 0) 0 2 b) as (d & E & Ld & F & G).
  - lia.
  - split; [exact L|]. split; [reflexivity|]. intros j i Hj Hn Hi. rewrite Hb by auto.
    assert (M : (edge b0 j i mod 3 <? 0) = false) by (apply Z.ltb_ge; apply Z.mod_pos_bound; lia).
    rewrite M, andb_false_r. reflexivity.
  - intros c d Hc (Ld & F & G). destruct Ak as [Ak1 Ak2]. rewrite rd_ok by lia. cbn [bind].
    fold (edge d k c). rewrite F by lia. rewrite Hb by (auto; split; auto; lia). rewrite Gk.
    (* entries pointing to edge c of k *)
    assert (Back : forall j i, alive_w j -> 0 <= i < 3 -> nxt3 (edge b0 j i) = k -> edge b0 j i mod 3 = c ->
              edge b0 k c = 3 * j + i /\ j <> k).
    { intros j i Hj Hi Hn Hm. destruct (Ha j i Hj Hi) as [Z0|(j' & iv & E1 & Hv & Hne & Hl & E2)].
      - exfalso. unfold nxt3 in Hn. rewrite Z0 in Hn. cbn in Hn. lia.
      - unfold nxt3 in Hn. destruct (div3 j' iv Hv) as [D1 D2]. rewrite E1, D1 in Hn. rewrite E1, D2 in Hm. subst j' iv.
        split; [exact E2|auto]. }
    assert (Ext : forall j i, alive_w j -> 0 <= i < 3 ->
       (nxt3 (edge b0 j i) =? k) && (edge b0 j i mod 3 <? c + 1) =
       (nxt3 (edge b0 j i) =? k) && (edge b0 j i mod 3 <? c) || ((nxt3 (edge b0 j i) =? k) && (edge b0 j i mod 3 =? c))).
    { intros j i _ _. destruct (nxt3 (edge b0 j i) =? k); [|reflexivity]. cbn [andb].
      destruct (Z.ltb_spec (edge b0 j i mod 3) (c + 1)), (Z.ltb_spec (edge b0 j i mod 3) c), (Z.eqb_spec (edge b0 j i mod 3) c); auto; lia. }
    destruct (Ha k c (conj Ak1 Ak2) ltac:(lia)) as [Z0|(j' & iv & E1 & Hv & Hne & Hl & E2)].
    + rewrite Z0. cbn [cut3]. change (cut3 (gone3 k) 0) with 0. cbn [Z.eqb]. exists d. split; [reflexivity|]. split; [exact Ld|]. split; [exact F|].
      intros j i Hj Hn Hi. rewrite G by auto. rewrite Ext by auto.
      destruct (Z.eqb_spec (nxt3 (edge b0 j i)) k) as [Ek|]; cbn [andb orb]; [|reflexivity].
      destruct (Z.eqb_spec (edge b0 j i mod 3) c) as [Ec|]; [|rewrite orb_false_r; reflexivity].
      destruct (Back j i Hj Hi Ek Ec) as [B1 _]. destruct Hj. lia.
    + destruct (div3 j' iv Hv) as [D1 D2].
      assert (Nz : edge b0 k c =? 0 = false) by (apply Z.eqb_neq; destruct Hl; lia).
      assert (Cx : cut3 (gone3 k) (edge b0 k c) = if gone3 k j' then 0 else 3 * j' + iv).
      { unfold cut3. rewrite Nz. unfold nxt3. rewrite E1, D1. reflexivity. }
      rewrite Cx. destruct (gone3 k j') eqn:Gj.
      * cbn [Z.eqb]. exists d. split; [reflexivity|]. split; [exact Ld|]. split; [exact F|].
        intros j i Hj Hn Hi. rewrite G by auto. rewrite Ext by auto.
        destruct (Z.eqb_spec (nxt3 (edge b0 j i)) k) as [Ek|]; cbn [andb orb]; [|reflexivity].
        destruct (Z.eqb_spec (edge b0 j i mod 3) c) as [Ec|]; [|rewrite orb_false_r; reflexivity].
        destruct (Back j i Hj Hi Ek Ec) as [B1 _]. assert (j = j') by lia. subst j. rewrite Gj. reflexivity.
      * rewrite E1 in Nz. rewrite Nz. destruct Hl as [Hl1 Hl2].
        rewrite Z.quot_div_nonneg by lia. rewrite Z.rem_mod_nonneg by lia. rewrite D1, D2.
        rewrite wr_ok by lia. eexists. split; [reflexivity|]. cbn [alen]. split; [exact Ld|]. split.
        -- intros i Hi. unfold edge. cbn [aget]. rewrite upd_other by lia. apply F. exact Hi.
        -- intros j i Hj Hn Hi. unfold edge at 1. cbn [aget]. unfold upd.
           destruct (Z.eqb_spec (3 * (j - 1) + 1 + i) (3 * (j' - 1) + 1 + iv)) as [Eq|Nq].
           ++ assert (j = j' /\ i = iv) as [-> ->] by (destruct Hj; lia). rewrite E2.
              destruct (gone3 k j'); [reflexivity|].
              destruct (div3 k c ltac:(lia)) as [D3 D4]. unfold nxt3. rewrite D3, D4, Z.eqb_refl.
              destruct (Z.ltb_spec c (c + 1)); [reflexivity|lia].
           ++ fold (edge d j i). rewrite G by auto. rewrite Ext by auto.
              destruct (Z.eqb_spec (nxt3 (edge b0 j i)) k) as [Ek|]; cbn [andb orb]; [|reflexivity].
              destruct (Z.eqb_spec (edge b0 j i mod 3) c) as [Ec|]; [|rewrite orb_false_r; reflexivity].
              destruct (Back j i Hj Hi Ek Ec) as [B1 _]. lia.
  - rewrite E. cbn [bind]. exists d. split; [reflexivity|]. split; [exact Ld|].
    intros j i Hj Hn Hi. rewrite G by auto. destruct (gone3 k j); [reflexivity|].
    assert (M : (edge b0 j i mod 3 <? 2 + 1) = true) by (apply Z.ltb_lt; apply Z.mod_pos_bound; lia).
    rewrite M, andb_true_r. unfold cut3. destruct (edge b0 j i =? 0); [destruct (_ =? k); reflexivity|].
    destruct (gone3 k (nxt3 (edge b0 j i))), (nxt3 (edge b0 j i) =? k); reflexivity.
Qed.

Lemma loop_step k a0 a f fuel : loop_inv3 k a0 a f -> alen a0 = alen (vpt s) -> 1 <= k <= wnt e + 1 -> (Z.to_nat (wnt e - k + 1) < fuel)%nat ->
  exists a' f', keep_loop3 fuel nsd k a f = Ret (a', f') /\ loop_inv3 (wnt e + 1) a0 a' f'.
Proof.
  revert k a f. induction fuel as [|fuel IH]; intros k a f I La0 Hk Hf; [lia|]. cbn [keep_loop3].
  pose proof (m_np OK) as Hnp. pose proof (m_ne OK) as Hne. pose proof (m_emax OK) as Hem.
  destruct I as [(Ll1 & Ll2 & Ll3) Ln Lend Lt Ladj Lp Lf Lnf].
  assert (Gge : forall j, k <= j -> gone3 k j = false) by (intros j Hj; unfold gone3; destruct (Z.ltb_spec j k); [lia|reflexivity]).
  destruct (Z.ltb_spec (wnt f) k) as [Hend|Hin].
  - (* nothing live remains from k on *)
    assert (Dead : forall j, k <= j <= wnt e -> wok (T j) = false).
    { intros j Hj. specialize (Lend j ltac:(lia)). destruct (Lt j ltac:(lia)) as [_ L]. rewrite L in Lend by (apply Gge; lia). exact Lend. }
    assert (Ge : forall j, gone3 (wnt e + 1) j = gone3 k j).
    { intros j. unfold gone3. destruct (Z.ltb_spec j (wnt e + 1)), (Z.ltb_spec j k); cbn [andb]; auto; [|lia].
      rewrite Dead by lia. rewrite andb_false_r. reflexivity. }
    exists a, f. split; [reflexivity|]. constructor; auto.
    + intros j Hj. rewrite Ge. apply Lt. exact Hj.
    + destruct (wadj e), (wadj f); auto. destruct Ladj as [A1 A2]. split; [exact A1|].
      intros j i Hj Hi. rewrite A2 by auto. rewrite Ge. unfold cut3. rewrite Ge. reflexivity.
    + intros i (j & Hj & Al & V). apply Lf. exists j. split; [|auto].
      destruct (Z.lt_ge_cases j k); [lia|]. destruct Al as [Al1 Al2]. rewrite Dead in Al2 by lia. discriminate.
    + intros i Hn. apply Lnf. intros j Hj. apply Hn. lia.
  - rewrite rd_ok by lia. cbn [bind]. destruct (Lt k ltac:(lia)) as [_ Tk]. specialize (Tk (Gge k ltac:(lia))). rewrite Tk.
    destruct (wok (T k)) eqn:Ek; cbn [negb].
    2:{ (* unused slot *)
      assert (Ge : forall j, gone3 (k + 1) j = gone3 k j).
      { intros j. rewrite gone_S. destruct (Z.eqb_spec j k) as [->|]; [rewrite Ek, andb_false_r|]; cbn [andb]; rewrite orb_false_r; reflexivity. }
      assert (Nk : ~ alive_w k) by (intros [_ X]; congruence).
      apply IH; [|auto|lia|lia]. constructor; auto.
      - intros j Hj. rewrite Ge. apply Lt. exact Hj.
      - destruct (wadj e), (wadj f); auto. destruct Ladj as [A1 A2]. split; [exact A1|].
        intros j i Hj Hi. rewrite A2 by auto. rewrite Ge. unfold cut3. rewrite Ge. reflexivity.
      - intros i (j & Hj & Al & V). apply Lf. exists j. split; [|auto]. assert (j <> k) by (intros ->; auto). lia.
      - intros i Hn. apply Lnf. intros j Hj. apply Hn. lia. }
    assert (Ak : alive_w k) by (split; [lia|exact Ek]).
    destruct (flag_vertices3_ok a (T k)) as (a1 & Ea & La & Fa & Ga).
    { intros x Hx. pose proof (m_tet OK k x Ak Hx). lia. }
    rewrite Ea. cbn [bind].
    assert (Lp' : forall i, same_pt (aget a1 i) (aget a0 i) /\ ptag (aget a1 i) = ptag (aget a0 i)).
    { intros i. destruct (Lp i) as [(P1 & P2 & P3 & P4) P5].
      assert (Dec : is_vtx (T k) i \/ ~ is_vtx (T k) i) by (unfold is_vtx; lia).
      destruct Dec as [V|V].
      - destruct (Ga i V) as ((Q1 & Q2 & Q3 & Q4) & _ & Q5). split; [repeat split|]; congruence.
      - rewrite (Fa i V). split; [repeat split|]; congruence. }
    assert (Lf' : forall i, (exists j, 1 <= j < k + 1 /\ alive_w j /\ is_vtx (T j) i) -> pflag (aget a1 i) = 1).
    { intros i (j & Hj & Al & V).
      assert (Dec : is_vtx (T k) i \/ ~ is_vtx (T k) i) by (unfold is_vtx; lia).
      destruct Dec as [V'|V']; [apply (Ga i V')|]. rewrite (Fa i V'). apply Lf. exists j. split; [|auto].
      assert (j <> k) by (intros ->; auto). lia. }
    assert (Lnf' : forall i, (forall j, 1 <= j < k + 1 -> alive_w j -> ~ is_vtx (T j) i) -> pflag (aget a1 i) = pflag (aget a0 i)).
    { intros i Hn. rewrite Fa by (apply Hn; auto; lia). apply Lnf. intros j Hj. apply Hn. lia. }
    destruct (Z.eqb_spec (wref (T k)) nsd) as [Er|Er].
    + (* kept *)
      assert (Ge : forall j, gone3 (k + 1) j = gone3 k j).
      { intros j. rewrite gone_S. destruct (Z.eqb_spec j k) as [->|]; [rewrite Er, Z.eqb_refl, andb_false_r|]; cbn [andb]; rewrite orb_false_r; reflexivity. }
      apply IH; [|auto|lia|lia]. constructor; auto.
      * split; [congruence|auto].
      * intros j Hj. rewrite Ge. apply Lt. exact Hj.
      * destruct (wadj e), (wadj f); auto. destruct Ladj as [A1 A2]. split; [exact A1|].
        intros j i Hj Hi. rewrite A2 by auto. rewrite Ge. unfold cut3. rewrite Ge. reflexivity.
    + (* deleted *)
      assert (Ge : forall j, gone3 (k + 1) j = gone3 k j || (j =? k)).
      { intros j. rewrite gone_S. destruct (Z.eqb_spec j k) as [->|]; cbn [andb]; [|reflexivity].
        rewrite Ek. destruct (Z.leb_spec 1 k); [|lia]. destruct (Z.eqb_spec (wref (T k)) nsd); [congruence|reflexivity]. }
      assert (U : exists adj, unlink3 (wadj f) k = Ret adj /\
        match wadj e, adj with
        | None, None => True
        | Some b0, Some b => alen b = alen b0 /\
            forall j i, alive_w j -> j <> k -> 0 <= i < 3 -> edge b j i = if gone3 k j then 0 else cut3 (fun x => gone3 k x || (x =? k)) (edge b0 j i)
        | _, _ => False
        end).
      { destruct (wadj e) as [b0|] eqn:Eb, (wadj f) as [b|] eqn:Ef; try contradiction.
        - destruct Ladj as [A1 A2]. destruct (unlink3_ok b0 b k Eb Ak A1 A2) as (b' & E1 & E2 & E3).
          exists (Some b'). split; [exact E1|]. split; [exact E2|exact E3].
        - exists None. split; reflexivity. }
      destruct U as (adj & Eu & Hu). rewrite Eu. cbn [bind]. unfold delTri. cbn [wtri wadj wnt wnil wmax].
      rewrite rd_ok by lia. cbn [bind]. rewrite Tk, Ek. cbn [negb]. rewrite wr_ok by lia. cbn [bind].
      destruct (clear_adj3_ok adj k) as (adj' & Ec & Hc).
      { lia. }
      { intros b Eb. rewrite Eb in Hu. destruct (wadj e) as [b0|] eqn:Eb0; [|contradiction].
        destruct Hu as [-> _]. destruct (m_adj OK b0 Eb0) as [-> _]. lia. }
      rewrite Ec. cbn [bind]. set (ar := mkArr _ _). set (z := mkTri 0 0 (wnil f) 0) in *.
      assert (Har : forall j, aget ar j = if j =? k then z else aget (wtri f) j) by reflexivity.
      assert (Hz : wok z = false) by reflexivity.
      assert (Hn : exists ne, (if k =? wnt f then trim wok (S (Z.to_nat (wnt f))) ar (wnt f) else Ret (wnt f)) = Ret ne
        /\ 0 <= ne <= wnt f /\ (forall j, ne < j <= wnt f -> wok (aget ar j) = false)).
      { destruct (k =? wnt f).
        - destruct (trim_spec _ wok ar (S (Z.to_nat (wnt f))) (wnt f)) as (m & T1 & T2 & T4 & T3); [unfold ar; cbn [alen]; lia|lia|].
          exists m. auto.
        - exists (wnt f). split; [reflexivity|]. split; [lia|]. intros; lia. }
      destruct Hn as (ne & En & Rn & Tn). rewrite En. cbn [bind].
      apply IH; [|auto|lia|lia]. constructor; cbn [wnt wnil wmax wtri wadj]; auto.
      * split; [congruence|]. split; [exact Ll2|reflexivity || exact Ll3].
      * lia.
      * intros j Hj. destruct (Z.le_gt_cases j (wnt f)); [apply Tn; lia|]. rewrite Har. destruct (j =? k); [exact Hz|]. apply Lend. lia.
      * intros j Hj. rewrite Ge, Har. destruct (Z.eqb_spec j k) as [->|].
        -- rewrite orb_true_r. split; [intros _; exact Hz|discriminate].
        -- rewrite orb_false_r. apply Lt. exact Hj.
      * destruct (wadj e) as [b0|]; destruct adj as [b|]; try contradiction; destruct adj' as [b'|]; try contradiction; auto.
        destruct Hu as [U1 U2]. destruct Hc as [C1 C2]. split; [congruence|].
        intros j i Hj Hi. rewrite Ge. unfold edge at 1. rewrite C2.
        destruct (Z.eqb_spec j k) as [->|Nj].
        -- rewrite orb_true_r. destruct (Z.leb_spec (3 * (k - 1) + 1) (3 * (k - 1) + 1 + i)), (Z.leb_spec (3 * (k - 1) + 1 + i) (3 * (k - 1) + 3)); try lia. reflexivity.
        -- rewrite orb_false_r. fold (edge b j i). rewrite U2 by auto.
           assert (N : (3 * (k - 1) + 1 <=? 3 * (j - 1) + 1 + i) && (3 * (j - 1) + 1 + i <=? 3 * (k - 1) + 3) = false).
           { destruct (Z.leb_spec (3 * (k - 1) + 1) (3 * (j - 1) + 1 + i)), (Z.leb_spec (3 * (j - 1) + 1 + i) (3 * (k - 1) + 3)); try reflexivity; lia. }
           rewrite N. destruct (gone3 k j); [reflexivity|]. unfold cut3. rewrite Ge. reflexivity.
Qed.

(** ** Vertices *)

Lemma mark_points_ok a : alen a = alen (vpt s) -> exists b,
  for_range 1 (vnp s) (fun k a => p <- rd a k ;;
       if negb (pflag p =? 0) || (Z.land (ptag p) MG_REQ =? 0) then Ret a else revive a k) a = Ret b /\
  revived (fun i => False \/ exists k, 1 <= k <= vnp s /\ (i = k /\ pflag (aget a k) = 0 /\ Z.land (ptag (aget a k)) MG_REQ <> 0)) a b.
Proof.
  intros L. pose proof (m_np OK) as Hn.
  apply (revived_loop (vnp s) _ (fun k i => i = k /\ pflag (aget a k) = 0 /\ Z.land (ptag (aget a k)) MG_REQ <> 0) a a (fun _ => False));
    [lia|apply revived_none|].
  intros S1 b k Hk R HS. pose proof R as [L' R']. rewrite rd_ok by lia. cbn [bind].
  destruct (R' k) as (R1 & R2 & R3 & R4 & R5).
  assert (Nk : ~ S1 k). { rewrite HS. intros [[]|(k' & K & E & _)]. lia. }
  rewrite R2, (R4 Nk). destruct (Z.eqb_spec (pflag (aget a k)) 0) as [E0|N0]; cbn [negb orb].
  - destruct (Z.eqb_spec (Z.land (ptag (aget a k)) MG_REQ) 0) as [E1|N1].
    + exists b. split; [reflexivity|]. apply revived_ext with (1 := R). intros i. split; [intros [|(_ & _ & X)]; [auto|contradiction]|auto].
    + destruct (revived_add S1 (fun i => S1 i \/ i = k) a b k R ltac:(lia) (fun i => iff_refl _)) as (b' & E & R6).
      exists b'. split; [exact E|]. apply revived_ext with (1 := R6). intros i. intuition.
  - exists b. split; [reflexivity|]. apply revived_ext with (1 := R). intros i. split; [intros [|(_ & X & _)]; [auto|contradiction]|auto].
Qed.

(** ** Cleaning *)
Lemma clean_pts2_ok fuel : forall s0 : vpool, 0 <= vnp s0 < alen (vpt s0) -> (Z.to_nat (vnp s0) < fuel)%nat ->
  exists s', clean_pts2 fuel s0 = Ret s' /\ 0 <= vnp s' <= vnp s0 /\ alen (vpt s') = alen (vpt s0) /\
    (0 < vnp s' -> vok (aget (vpt s') (vnp s')) = true) /\
    (forall i, vnp s' < i <= vnp s0 -> vok (aget (vpt s0) i) = false /\ vok (aget (vpt s') i) = false) /\
    (forall i, i <= vnp s' \/ vnp s0 < i -> i <> 0 -> aget (vpt s') i = aget (vpt s0) i).
Proof.
  induction fuel as [|fuel IH]; intros s0 Hn Hf; [lia|]. cbn [clean_pts2].
  rewrite rd_ok by lia. cbn [bind].
  assert (Stop : exists s', Ret s0 = Ret s' /\ 0 <= vnp s' <= vnp s0 /\ alen (vpt s') = alen (vpt s0) /\
    (vnp s' = vnp s0) /\ (forall i, vnp s' < i <= vnp s0 -> vok (aget (vpt s0) i) = false /\ vok (aget (vpt s') i) = false) /\
    (forall i, i <= vnp s' \/ vnp s0 < i -> i <> 0 -> aget (vpt s') i = aget (vpt s0) i)).
  { exists s0. split; [reflexivity|]. split; [lia|]. split; [reflexivity|]. split; [reflexivity|]. split; [intros; lia|reflexivity]. }
  destruct (vok (aget (vpt s0) (vnp s0))) eqn:V.
  - exists s0. split; [reflexivity|]. split; [lia|]. split; [reflexivity|]. split; [auto|]. split; [intros; lia|reflexivity].
  - destruct (Z.eqb_spec (vnp s0) 0) as [E0|N0].
    + exists s0. split; [reflexivity|]. split; [lia|]. split; [reflexivity|]. split; [lia|]. split; [intros; lia|reflexivity].
    + unfold delPt2.
      rewrite wr_ok by lia. cbn [bind]. rewrite Z.eqb_refl.
      set (b := mkArr _ _). set (z := mkP 0 0 0 (vnil s0) 0 MG_NUL) in *.
      assert (Hb : forall i, aget b i = if i =? vnp s0 then z else aget (vpt s0) i) by reflexivity.
      assert (Hz : vok z = false) by reflexivity.
      destruct (trim_spec _ vok b (S (Z.to_nat (vnp s0))) (vnp s0)) as (m & T1 & T2 & T3 & T4); [unfold b; cbn [alen]; lia|lia|].
      rewrite T1. cbn [bind].
      assert (Hm : m < vnp s0).
      { destruct (Z.lt_ge_cases m (vnp s0)); [assumption|]. assert (m = vnp s0) as -> by lia.
        assert (X : vok (aget b (vnp s0)) = true) by (first [apply T3|apply T4]; lia). rewrite Hb, Z.eqb_refl, Hz in X. discriminate. }
      set (s1 := mkV m (vnp s0) (vmax s0) b (vxp s0) (vxmax s0)).
      destruct (IH s1) as (s' & E & R1 & R2 & R3 & R4 & R5).
      { cbn [vnp vpt s1]. unfold b; cbn [alen]. lia. }
      { cbn [vnp s1]. lia. }
      cbn [vnp vpt s1] in R1, R2, R4, R5.
      assert (Dead : forall i, m < i <= vnp s0 -> vok (aget (vpt s0) i) = false /\ vok (aget b i) = false).
      { intros i Hi. rewrite Hb. destruct (Z.eqb_spec i (vnp s0)) as [->|Ni]; [split; [exact V|exact Hz]|].
        assert (X : vok (aget b i) = false) by (first [apply T3|apply T4]; lia).
        rewrite Hb in X. destruct (Z.eqb_spec i (vnp s0)); [lia|]. auto. }
      exists s'. split; [exact E|]. split; [lia|]. split; [rewrite R2; reflexivity|]. split; [exact R3|]. split.
      * intros i Hi. destruct (Z.le_gt_cases i m).
        -- destruct (R4 i ltac:(lia)) as [R6 R7]. split; [|exact R7]. rewrite Hb in R6. destruct (Z.eqb_spec i (vnp s0)); [lia|exact R6].
        -- destruct (Dead i ltac:(lia)) as [D1 D2]. split; [exact D1|]. rewrite R5 by (lia || (right; lia)). exact D2.
      * intros i Hi Hi0. rewrite R5 by lia. rewrite Hb. destruct (Z.eqb_spec i (vnp s0)); [lia|reflexivity].
Qed.

(** C28: keeping one subdomain never fails on a valid mesh and
    - the elements of the chosen reference stay in place, unchanged, and no other
      element remains;
    - a kept element is linked to the neighbours that are kept, at the same edge,
      and to no other; the links of a deleted element are cleared;
    - a vertex remains exactly when a kept element or a quadrilateral uses it, or when it
      is required and no element used it; what remains keeps its coordinates,
      reference, boundary index and tag. *)
Theorem C28_keep_one_triangles : nsd <> 0 -> exists s' e', keep_only1_tri nsd s e qd nq = Ret (s', e') /\
  (0 <= wnt e' <= wnt e) /\
  (forall k, 1 <= k <= wnt e -> (kept_w k -> k <= wnt e' /\ aget (wtri e') k = T k) /\
                                (~ kept_w k -> wok (aget (wtri e') k) = false)) /\
  match wadj e, wadj e' with
  | None, None => True
  | Some a, Some a' => alen a' = alen a /\ forall k i, alive_w k -> 0 <= i < 3 ->
      (~ kept_w k -> edge a' k i = 0) /\
      (kept_w k -> (kept_w (edge a k i / 3) -> edge a' k i = edge a k i) /\ (~ kept_w (edge a k i / 3) -> edge a' k i = 0))
  | _, _ => False
  end /\
  (0 <= vnp s' <= vnp s) /\ (0 < vnp s' -> vok (aget (vpt s') (vnp s')) = true) /\
  (forall i, 1 <= i <= vnp s ->
     (vok (aget (vpt s') i) = true <-> used_w i \/ isolated_w i) /\
     (used_w i \/ isolated_w i -> i <= vnp s' /\
        pc (aget (vpt s') i) = pc (P i) /\ pref (aget (vpt s') i) = pref (P i) /\ pxp (aget (vpt s') i) = pxp (P i) /\
        (vok (P i) = true -> ptag (aget (vpt s') i) = ptag (P i)))).
Proof.
  intros Hd. unfold keep_only1_tri. destruct (Z.eqb_spec nsd 0); [contradiction|].
  destruct mark_unused_ok as (a0 & E0 & L0 & O0 & M0). rewrite E0. cbn [bind].
  change (vpt (set_vpt s a0)) with a0.
  pose proof (m_np OK) as Hnp. pose proof (m_ne OK) as Hne. pose proof (m_qd OK) as Hpr.
  destruct (loop_step 1 a0 a0 e (S (Z.to_nat (wnt e)))) as (a & e' & E1 & I).
  { assert (G1 : forall j, gone3 1 j = false).
    { intros j. unfold gone3. destruct (Z.ltb_spec j 1), (Z.leb_spec 1 j); try lia; reflexivity. }
    constructor; auto.
    - lia.
    - intros; lia.
    - intros j Hj. rewrite G1. split; [discriminate|reflexivity].
    - destruct (wadj e) as [b|] eqn:Eb; [|exact I]. split; [reflexivity|]. intros j i Hj Hi. rewrite G1. unfold cut3. rewrite G1.
      destruct (Z.eqb_spec (edge b j i) 0); auto.
    - intros i. split; [apply same_refl|reflexivity].
    - intros i (j & Hj & _). lia. }
  { exact L0. }
  { lia. }
  { lia. }
  rewrite E1. cbn [bind].
  destruct I as [(Ll1 & Ll2 & Ll3) Ln Lend Lt Ladj Lp Lf Lnf].
  assert (Gd : forall j, alive_w j -> (gone3 (wnt e + 1) j = true <-> ~ kept_w j)).
  { intros j [Hj Ej]. unfold gone3, kept_w, alive_w. rewrite Ej.
    rewrite (proj2 (Z.ltb_lt j (wnt e + 1))), (proj2 (Z.leb_le 1 j)) by lia. cbn [andb]. rewrite negb_true_iff, Z.eqb_neq. split; [intros X [_ Y]; auto|]. intros X Y. apply X. auto. }
  assert (Gk : forall j, kept_w j -> gone3 (wnt e + 1) j = false).
  { intros j K. destruct (gone3 (wnt e + 1) j) eqn:G; [|reflexivity]. apply Gd in G; [contradiction|apply K]. }
  assert (Kdec : forall j, kept_w j \/ ~ kept_w j).
  { intros j. unfold kept_w, alive_w. destruct (wok (T j)); [|right; intros [[_ X] _]; discriminate].
    assert (D : 1 <= j <= wnt e \/ ~ 1 <= j <= wnt e) by lia. destruct D; [|tauto].
    destruct (Z.eq_dec (wref (T j)) nsd); tauto. }
  assert (Tk : forall k, 1 <= k <= wnt e -> (kept_w k -> k <= wnt e' /\ aget (wtri e') k = T k) /\ (~ kept_w k -> wok (aget (wtri e') k) = false)).
  { intros k Hk. destruct (Lt k Hk) as [X Y]. split.
    - intros K. pose proof (Y (Gk k K)) as Q. split; [|exact Q].
      destruct (Z.le_gt_cases k (wnt e')); [assumption|]. specialize (Lend k ltac:(lia)). rewrite Q in Lend.
      destruct K as [[_ K] _]. congruence.
    - intros K. destruct (wok (T k)) eqn:Ek.
      + apply X. apply Gd; [split; auto|exact K].
      + destruct (gone3 (wnt e + 1) k) eqn:G; [apply X; reflexivity|]. rewrite Y by reflexivity. exact Ek. }
  (* vertices *)
  unfold mark_used3. change (vnp (set_vpt (set_vpt s a0) a)) with (vnp s). change (vpt (set_vpt (set_vpt s a0) a)) with a.
  assert (La : alen a = alen (vpt s)) by congruence.
  destruct (mark_points_ok a La) as (b1 & F1 & R1). rewrite F1. cbn [bind].
  match type of R1 with revived ?S _ _ => set (S1 := S) in R1 end.
  destruct (revived_loop (wnt e') (fun k a => t <- rd (wtri e') k ;;
         if negb (wok t) then Ret a else revive_all a [w0 t; w1 t; w2 t])
      (fun k j => wok (aget (wtri e') k) = true /\ In j [w0 (aget (wtri e') k); w1 (aget (wtri e') k); w2 (aget (wtri e') k)])
      a b1 S1) as (b2 & F2 & R2); [lia|exact R1| |].
  { intros S2 b k Hk R HS. rewrite rd_ok by lia. cbn [bind]. destruct (wok (aget (wtri e') k)) eqn:Ek; cbn [negb].
    - assert (K : kept_w k). { destruct (Kdec k) as [K|K]; [exact K|]. destruct (Tk k ltac:(lia)) as [_ Y]. rewrite Y in Ek by exact K. discriminate. }
      destruct (Tk k ltac:(lia)) as [X _]. destruct (X K) as [_ Q]. rewrite Q.
      destruct (revived_all [w0 (T k); w1 (T k); w2 (T k)] S2 (fun j => S2 j \/ In j [w0 (T k); w1 (T k); w2 (T k)]) a b R) as (b' & E & R').
      + intros x Hx. pose proof (m_tet OK k x (proj1 K)) as B. rewrite La. assert (1 <= x <= vnp s); [|lia]. apply B.
        unfold is_vtx. cbn [In] in Hx. intuition.
      + reflexivity.
      + exists b'. split; [exact E|]. apply revived_ext with (1 := R'). intros j. intuition.
    - exists b. split; [reflexivity|]. apply revived_ext with (1 := R). intros j. intuition congruence. }
  rewrite F2. cbn [bind].
  match type of R2 with revived ?S _ _ => set (S2 := S) in R2 end.
  destruct (revived_loop nq (fun k a => l <- rd qd k ;; if negb (prok l) then Ret a else revive_all a l)
      (fun k j => prok (aget qd k) = true /\ In j (aget qd k)) a b2 S2) as (b3 & F3 & R3); [lia|exact R2| |].
  { intros S3 b k Hk R HS. rewrite rd_ok by lia. cbn [bind]. destruct (prok (aget qd k)) eqn:Ek; cbn [negb].
    - destruct (revived_all (aget qd k) S3 (fun j => S3 j \/ In j (aget qd k)) a b R) as (b' & E & R').
      + intros x Hx. pose proof (m_qdv OK k x Hk Ek Hx). lia.
      + reflexivity.
      + exists b'. split; [exact E|]. apply revived_ext with (1 := R'). intros j. intuition.
    - exists b. split; [reflexivity|]. apply revived_ext with (1 := R). intros j. intuition congruence. }
  rewrite F3. cbn [bind].
  match type of R3 with revived ?S _ _ => set (S3 := S) in R3 end.
  destruct R3 as [L3 R3].
  change (set_vpt (set_vpt (set_vpt s a0) a) b3) with (set_vpt s b3).
  (* state of each vertex before the cleaning *)
  assert (St : forall i, 1 <= i <= vnp s -> same_pt (aget b3 i) (P i) /\
     (S3 i -> vok (aget b3 i) = true /\ (vok (P i) = true -> ptag (aget b3 i) = ptag (P i))) /\ (~ S3 i -> vok (aget b3 i) = false)).
  { intros i Hi. destruct (R3 i) as (Q1 & Q2 & Q3 & Q4 & _). destruct (Lp i) as [Q5 Q6]. destruct (M0 i Hi) as (Q7 & Q8 & Q9).
    pose proof (m_tag OK i Hi) as Ht. destruct (tag_facts _ Ht) as (T1 & T2 & T3 & T4 & _ & _).
    split; [eapply same_trans; [exact Q1|]; eapply same_trans; [exact Q5|exact Q7]|].
    unfold vok in *. split.
    - intros HS. rewrite (Q3 HS), Q6. destruct (Z.ltb_spec (ptag (P i)) MG_NUL) as [V|V].
      + rewrite (proj2 (Q8 eq_refl)), T1 by exact V. split; [apply Z.ltb_lt; exact V|reflexivity].
      + rewrite Q9 by reflexivity. split; [apply Z.ltb_lt; apply T3|discriminate].
    - intros HS. rewrite (Q4 HS), Q6. apply Z.ltb_ge. destruct (Z.ltb_spec (ptag (P i)) MG_NUL) as [V|V].
      + rewrite (proj2 (Q8 eq_refl)). apply T2.
      + rewrite Q9 by reflexivity. exact V. }
  assert (HS : forall i, 1 <= i <= vnp s -> (S3 i <-> used_w i \/ isolated_w i)).
  { intros i Hi. unfold S3, S2, S1, used_w, isolated_w. destruct (M0 i Hi) as (_ & Q8 & Q9). destruct (Lp i) as [_ Q6].
    pose proof (m_tag OK i Hi) as Ht. destruct (tag_facts _ Ht) as (_ & _ & _ & _ & T5 & _).
    assert (Rq : Z.land (ptag (aget a i)) MG_REQ = Z.land (ptag (P i)) MG_REQ).
    { rewrite Q6. destruct (vok (P i)) eqn:V; [rewrite (proj2 (Q8 eq_refl)); exact T5|rewrite Q9 by reflexivity; reflexivity]. }
    split.
    - intros [[[[]|(k & Hk & -> & Fl & Rr)]|(k & Hk & Ek & Hin)]|(k & Hk & Ek & Hin)].
      + right. rewrite <- Rq. split; [exact Rr|].
        assert (NV : forall j, alive_w j -> ~ is_vtx (T j) k).
        { intros j Al V. rewrite Lf in Fl; [discriminate|]. exists j. destruct Al. split; [lia|]. split; [split; auto|exact V]. }
        split; [exact NV|]. rewrite Lnf in Fl by (intros j _; apply NV).
        destruct (vok (P k)) eqn:V; [auto|]. right. rewrite Q9 in Fl by reflexivity. exact Fl.
      + left. left. exists k.
        assert (K : kept_w k). { destruct (Kdec k) as [K|K]; [exact K|]. destruct (Tk k ltac:(lia)) as [_ Y]. rewrite Y in Ek by exact K. discriminate. }
        split; [exact K|]. destruct (Tk k ltac:(lia)) as [X _]. destruct (X K) as [_ Q]. rewrite Q in Hin. unfold is_vtx. cbn [In] in Hin. intuition.
      + left. right. exists k. auto.
    - intros [[(k & K & V)|(k & Hk & Ek & Hin)]|(Rr & NV & Fl)].
      + left. right. exists k. destruct (Tk k ltac:(apply K)) as [X _]. destruct (X K) as [Q0 Q]. split; [split; [apply K|exact Q0]|].
        rewrite Q. split; [apply K|]. unfold is_vtx in V. cbn [In]. intuition.
      + right. exists k. auto.
      + left. left. right. exists i. split; [exact Hi|]. split; [reflexivity|]. rewrite Rq. split; [|exact Rr].
        rewrite Lnf by (intros j _; apply NV). destruct (vok (P i)) eqn:V; [apply Q8; reflexivity|].
        rewrite Q9 by reflexivity. destruct Fl; [discriminate|assumption]. }
  destruct (clean_pts2_ok (S (Z.to_nat (vnp s))) (set_vpt s b3)) as (s' & E3 & C1 & C2 & C3 & C4 & C5).
  { cbn [vnp vpt set_vpt]. lia. }
  { cbn [vnp set_vpt]. lia. }
  cbn [vnp vpt set_vpt] in C1, C2, C4, C5. rewrite E3. cbn [bind].
  exists s', e'. split; [reflexivity|]. split; [lia|]. split; [exact Tk|]. split.
  { destruct (wadj e) as [b0|] eqn:Eb, (wadj e') as [b|]; auto. destruct Ladj as [A1 A2]. split; [exact A1|].
    destruct (m_adj OK b0 Eb) as [_ Ha]. intros k i Hk Hi. rewrite A2 by auto. split.
    - intros K. apply Gd in K; [|exact Hk]. rewrite K. reflexivity.
    - intros K. rewrite (Gk k K). unfold cut3, nxt3. destruct (Z.eqb_spec (edge b0 k i) 0) as [E|N]; [rewrite E; auto|]. split; intros Kn.
      + rewrite (Gk _ Kn). reflexivity.
      + destruct (Ha k i Hk Hi) as [Z0|(j & iv & X1 & X2 & X3 & X4 & X5)]; [contradiction|].
        rewrite X1 in *. destruct (div3 j iv X2) as [D1 D2]. rewrite D1 in *. apply Gd in Kn; [|exact X4]. rewrite Kn. reflexivity. }
  split; [lia|]. split; [exact C3|].
  intros i Hi. rewrite <- (HS i Hi). destruct (St i Hi) as (Q1 & Q2 & Q3).
  destruct (Z.le_gt_cases i (vnp s')) as [Le|Gt].
  - rewrite C5 by lia. split.
    + split; [|intros X; apply Q2; exact X]. intros V.
      assert (Dec : S3 i \/ ~ S3 i).
      { apply R3. }
      destruct Dec as [X|X]; [exact X|]. rewrite (Q3 X) in V. discriminate.
    + intros X. split; [exact Le|]. destruct Q1 as (Q4 & Q5 & Q6 & _). repeat split; auto. apply Q2. exact X.
  - destruct (C4 i ltac:(lia)) as [C6 C7]. rewrite C7. split; [split; [discriminate|]|]; intros X.
    + destruct (Q2 X) as [Q4 _]. congruence.
    + destruct (Q2 X) as [Q4 _]. congruence.
Qed.
End Sub.

(** Two triangles of reference 1 and one of reference 2 sharing edges, a required
    isolated vertex 6, an isolated vertex 7 that is not required. *)
Definition ex_s2 : vpool := mkV 7 0 7
  (aof point0 [mkP 10 0 0 0 0 0; mkP 20 0 0 0 0 0; mkP 30 0 0 0 0 16; mkP 40 0 0 0 0 0;
               mkP 50 0 0 0 0 0; mkP 60 3 0 0 0 MG_REQ; mkP 70 0 0 0 0 0]) 0 0.
Definition ex_e2 : tpool := mkTP 3 0 3
  (aof (mkTri 0 0 0 0) [mkTri 1 2 3 1; mkTri 2 4 3 1; mkTri 4 5 3 2])
  (Some (aof 0 [2 * 3 + 1; 0; 0; 3 * 3 + 1; 1 * 3 + 0; 0; 0; 2 * 3 + 0; 0; 0; 0; 0; 0])).

Example C28_case_triangles : wmesh_ok ex_s2 ex_e2 (acalloc 1 []) 0 /\
  match keep_only1_tri 1 ex_s2 ex_e2 (acalloc 1 []) 0 with
  | Ret (s', e') => Some (vnp s', map (fun i => (pc (aget (vpt s') i), vok (aget (vpt s') i))) (zrange 1 7), wnt e',
                     option_map (fun a => map (aget a) (zrange 1 9)) (wadj e'))
  | Stuck => None
  end = Some (6, [(10, true); (20, true); (30, true); (40, true); (50, false); (60, true); (0, false)], 2,
              Some [7; 0; 0; 0; 3; 0; 0; 0; 0]).
Proof.
  split; [|vm_compute; reflexivity].
  assert (R : forall k, 1 <= k <= 3 -> k = 1 \/ k = 2 \/ k = 3) by lia.
  constructor.
  - cbn. lia.
  - cbn [vnp ex_s2]. intros i Hi. assert (i = 1 \/ i = 2 \/ i = 3 \/ i = 4 \/ i = 5 \/ i = 6 \/ i = 7) as X by lia.
    repeat destruct X as [->|X]; subst; vm_compute; split; congruence.
  - cbn. lia.
  - cbn. lia.
  - intros k x [Hk _] V. change (1 <= x <= 7). cbn in Hk.
    destruct (R k Hk) as [->|[->| ->]]; vm_compute in V; repeat destruct V as [->|V]; subst; lia.
  - cbn. lia.
  - intros; lia.
  - intros a E. injection E as <-. split; [reflexivity|]. intros k i [Hk _] Hi. cbn in Hk.
    assert (i = 0 \/ i = 1 \/ i = 2) as Xi by lia.
    destruct (R k Hk) as [->|[->| ->]], Xi as [->|[->| ->]]; try (left; reflexivity);
      right; [exists 2, 1|exists 3, 1|exists 1, 0|exists 2, 0]; (split; [reflexivity|]); (split; [lia|]); (split; [lia|]);
      (split; [split; [cbn; lia|reflexivity]|reflexivity]).
Qed.

Print Assumptions C28_keep_one_triangles.
