(** The solution files: what is written is read back.  Used by [PropsSol]. *)
From Coq Require Import String ZArith List Lia Bool.
From Verif Require Import CBase IoModel IoLoad IoSave SolModel.
Import ListNotations.
Open Scope Z_scope.
Open Scope list_scope.

Set Implicit Arguments.

Lemma concat_len A n (l : list (list A)) : (forall x, In x l -> length x = n) -> length (concat l) = (n * length l)%nat.
Proof.
  induction l as [|x l IH]; intros H; [cbn; lia|]. cbn. rewrite app_length, IH, (H x).
  - lia.
  - left. reflexivity.
  - intros. apply H. right. assumption.
Qed.

Section Arrays.
Variable D : Type.

Lemma wrl_ok (l : list D) : forall (a : arr D) i, 0 <= i -> i + Z.of_nat (length l) <= alen a ->
  exists a', wrl a i l = Ret a' /\ alen a' = alen a /\
  (forall c d, nth_error l c = Some d -> aget a' (i + Z.of_nat c) = d) /\
  (forall j, j < i \/ i + Z.of_nat (length l) <= j -> aget a' j = aget a j).
Proof.
  induction l as [|d l IH]; intros a i H0 H1; cbn [wrl].
  - exists a. split; [reflexivity|]. split; [reflexivity|]. split; [intros [|c] d'; discriminate|reflexivity].
  - cbn [length] in H1. rewrite wr_ok by lia. cbn [bind].
    destruct (IH (mkArr (alen a) (upd (aget a) i d)) (i + 1)) as (a' & E & L & G1 & G2).
    + lia.
    + cbn [alen]. lia.
    + exists a'. split; [exact E|]. split; [exact L|]. split.
      * intros [|c] d' H.
        -- injection H as <-. rewrite G2 by lia. cbn [aget]. replace (i + Z.of_nat 0) with i by lia.
           apply upd_same.
        -- cbn in H. replace (i + Z.of_nat (S c)) with (i + 1 + Z.of_nat c) by lia. apply G1. exact H.
      * intros j Hj. cbn [length] in Hj. rewrite G2 by lia. cbn [aget]. apply upd_other. lia.
Qed.

Lemma swap23_swap23 (l : list D) : swap23 (swap23 l) = l.
Proof. destruct l as [|a [|b [|c [|d [|e [|f [|g l]]]]]]]; reflexivity. Qed.

Lemma swap23_length (l : list D) : length (swap23 l) = length l.
Proof. destruct l as [|a [|b [|c [|d [|e [|f [|g l]]]]]]]; reflexivity. Qed.

Lemma swap23_map (g : D -> D) (l : list D) : swap23 (map g l) = map g (swap23 l).
Proof. destruct l as [|a [|b [|c [|d [|e [|f [|h l]]]]]]]; reflexivity. Qed.

End Arrays.

Section Reading.
Variable D : Type.
Variable F : Type.
Variable next : F -> res (D * F).

(** The next numbers of a file. *)
Fixpoint feeds (l : list D) (f tl : F) : Prop :=
  match l with
  | [] => tl = f
  | d :: r => exists f', next f = Ok (d, f') /\ feeds r f' tl
  end.

Lemma feeds_app l l' f tl : feeds (l ++ l') f tl <-> exists mid, feeds l f mid /\ feeds l' mid tl.
Proof.
  revert f. induction l as [|d l IH]; intros f; cbn [app feeds].
  - split; [intros H; exists f; tauto|]. intros (mid & -> & H). exact H.
  - split.
    + intros (f' & E & H). apply IH in H. destruct H as (mid & H1 & H2). exists mid. split; [|exact H2].
      exists f'. tauto.
    + intros (mid & (f' & E & H1) & H2). exists f'. split; [exact E|]. apply IH. exists mid. tauto.
Qed.

Lemma nexts_ok l : forall f tl, feeds l f tl -> nexts next (length l) f = Ok (l, tl).
Proof.
  induction l as [|d l IH]; intros f tl H; cbn [length nexts feeds] in *.
  - subst. reflexivity.
  - destruct H as (f' & E & H). rewrite E. cbn [rbind]. rewrite (IH _ _ H). reflexivity.
Qed.

(** The numbers in the file for the values [l] of a solution. *)
Definition wire (s : sol D) (l : list D) : list D := if q_size s =? 6 then swap23 l else l.

Lemma wire_length s l : length (wire s l) = length l.
Proof. unfold wire. destruct (q_size s =? 6); [apply swap23_length|reflexivity]. Qed.

(** [s'] is [s] with the values [l] at the entity [k]. *)
Definition set_at (k : Z) (l : list D) (s s' : sol D) : Prop :=
  q_ent s' = q_ent s /\ q_type s' = q_type s /\ q_size s' = q_size s /\ alen (q_m s') = alen (q_m s) /\
  (forall c d, nth_error l c = Some d -> aget (q_m s') (q_size s * k + Z.of_nat c) = d) /\
  (forall j, j < q_size s * k \/ q_size s * (k + 1) <= j -> aget (q_m s') j = aget (q_m s) j).

Lemma read1_ok k s l f tl : 0 < q_size s -> Z.of_nat (length l) = q_size s -> 0 <= k ->
  q_size s * (k + 1) <= alen (q_m s) -> feeds (wire s l) f tl ->
  exists s', read1 next k s f = Ok (s', tl) /\ set_at k l s s'.
Proof.
  intros P L K B H. unfold read1.
  replace (Z.to_nat (q_size s)) with (length (wire s l)) by (rewrite wire_length; lia).
  rewrite (nexts_ok _ _ _ H). cbn [rbind].
  assert (E : (if q_size s =? 6 then swap23 (wire s l) else wire s l) = l).
  { unfold wire. destruct (q_size s =? 6); [apply swap23_swap23|reflexivity]. }
  rewrite E. destruct (@wrl_ok D l (q_m s) (q_size s * k)) as (a & W & A & G1 & G2).
  - apply Z.mul_nonneg_nonneg; lia.
  - rewrite L. lia.
  - rewrite W. cbn [lift rbind]. eexists. split; [reflexivity|].
    repeat split; cbn; try assumption. intros j Hj. apply G2. rewrite L. lia.
Qed.

Definition room (k : Z) (s : sol D) : Prop := 0 < q_size s /\ q_size s * (k + 1) <= alen (q_m s).

Fixpoint wires (l : list (sol D)) (v : list (list D)) : list D :=
  match l, v with
  | s :: r, x :: w => wire s x ++ wires r w
  | _, _ => []
  end.

Definition fit (s : sol D) (l : list D) : Prop := Z.of_nat (length l) = q_size s.

Lemma read_row_ok k l : forall v f tl, 0 <= k -> Forall (room k) l -> Forall2 fit l v ->
  feeds (wires l v) f tl ->
  exists l', read_row next k l f = Ok (l', tl) /\ 
    Forall2 (fun x s' => set_at k (snd x) (fst x) s') (combine l v) l'.
Proof.
  induction l as [|s l IH]; intros v f tl K R V H; inversion V as [|? x ? w V1 V2]; subst; cbn [wires] in H.
  - cbn in *. subst. exists []. split; [reflexivity|constructor].
  - apply feeds_app in H. destruct H as (mid & H1 & H2). inversion R as [|? ? [R1 R2] R3]; subst.
    destruct (@read1_ok k s x f mid R1 V1 K R2 H1) as (s' & E & S). cbn [read_row]. rewrite E. cbn [rbind].
    destruct (IH _ _ _ K R3 V2 H2) as (l' & E2 & S2). rewrite E2. cbn [rbind].
    exists (s' :: l'). split; [reflexivity|]. cbn [combine]. constructor; assumption.
Qed.

(** After some rows: the values of the row [i] are those of the entity [i + 1]. *)
Definition same_shape (s s' : sol D) : Prop :=
  q_type s' = q_type s /\ q_size s' = q_size s /\ alen (q_m s') = alen (q_m s).

Definition holding (rows : list (list (list D))) (l l' : list (sol D)) : Prop :=
  Forall2 same_shape l l' /\
  forall i v j s' x c d, nth_error rows i = Some v -> nth_error l' j = Some s' -> nth_error v j = Some x ->
    nth_error x c = Some d -> aget (q_m s') (q_size s' * (Z.of_nat i + 1) + Z.of_nat c) = d.

Lemma Forall2_nth A B (R : A -> B -> Prop) l l' i b : Forall2 R l l' -> nth_error l' i = Some b ->
  exists a, nth_error l i = Some a /\ R a b.
Proof.
  intros H. revert i. induction H as [|x y l l' H0 H1 IH]; intros [|i] E; try discriminate E; cbn in *.
  - injection E as <-. exists x. tauto.
  - apply IH. exact E.
Qed.

Lemma nth_combine A B (l : list A) : forall (v : list B) i a b,
  nth_error (combine l v) i = Some (a, b) -> nth_error l i = Some a /\ nth_error v i = Some b.
Proof.
  induction l as [|x l IH]; intros [|y v] [|i] a b E; try discriminate E; cbn in *.
  - injection E as <- <-. tauto.
  - apply IH. exact E.
Qed.

Lemma Forall2_shape_trans l l1 l2 v k : Forall2 same_shape l l1 -> Forall2 fit l1 v ->
  Forall2 (fun x s' => set_at k (snd x) (fst x) s') (combine l1 v) l2 -> Forall2 same_shape l l2.
Proof.
  intros H. revert v l2. induction H as [|s s1 l l1 H0 H1 IH]; intros v l2 V S.
  - inversion V; subst. cbn in S. inversion S. constructor.
  - inversion V; subst. cbn [combine] in S. inversion S; subst. constructor.
    + unfold same_shape, set_at in *. cbn [fst snd] in *. intuition congruence.
    + eapply IH; eassumption.
Qed.

Lemma shape_fit l l1 v : Forall2 same_shape l l1 -> Forall2 fit l v -> Forall2 fit l1 v.
Proof.
  intros H. revert v. induction H as [|s s1 l l1 H0 H1 IH]; intros v V; inversion V; subst; constructor.
  - unfold fit, same_shape in *. intuition congruence.
  - apply IH. assumption.
Qed.

Lemma shape_room k l l1 : Forall2 same_shape l l1 -> Forall (room k) l -> Forall (room k) l1.
Proof.
  induction 1 as [|s s1 l l1 H0 H1 IH]; intros V; inversion V as [|? ? [A B]]; subst; constructor.
  - unfold room, same_shape in *. destruct H0 as (_ & -> & ->). tauto.
  - apply IH. assumption.
Qed.

Lemma shape_wires l l1 v : Forall2 same_shape l l1 -> wires l1 v = wires l v.
Proof.
  intros H. revert v. induction H as [|s s1 l l1 H0 H1 IH]; intros v; [reflexivity|].
  destruct v as [|x w]; [reflexivity|]. cbn [wires]. rewrite IH. unfold wire.
  destruct H0 as (_ & -> & _). reflexivity.
Qed.

Lemma read_rows_ok l todo : forall past n f tl l1,
  Z.of_nat (length past) + Z.of_nat (length todo) = n ->
  Forall (room n) l -> Forall (fun v => Forall2 fit l v) past -> Forall (fun v => Forall2 fit l v) todo ->
  feeds (concat (map (wires l) todo)) f tl -> holding past l l1 ->
  exists l2, floop (fun k '(l, f) => read_row next k l f)
     (map (fun i => Z.of_nat (length past) + Z.of_nat i) (seq 1 (length todo))) (l1, f) = Ok (l2, tl) /\
     holding (past ++ todo) l l2.
Proof.
  induction todo as [|v todo IH]; intros past n f tl l1 N R VP V H HO.
  - cbn in *. subst. exists l1. rewrite app_nil_r. split; [reflexivity|exact HO].
  - cbn [map concat] in H. apply feeds_app in H. destruct H as (mid & H1 & H2).
    inversion V as [|? ? V1 V2]; subst. destruct HO as [SH HO]. cbn [length] in *.
    set (k := Z.of_nat (length past) + 1).
    assert (RK : Forall (room k) l).
    { clear - R. unfold k. eapply Forall_impl; [|exact R]. intros s [A B]. split; [exact A|].
      etransitivity; [|exact B]. apply Z.mul_le_mono_nonneg_l; lia. }
    destruct (@read_row_ok k l1 v f mid) as (l2 & E & S).
    + unfold k. lia.
    + eapply shape_room; eassumption.
    + eapply shape_fit; eassumption.
    + rewrite (shape_wires v SH). exact H1.
    + cbn [seq map floop]. replace (Z.of_nat (length past) + Z.of_nat 1) with k by (unfold k; lia).
      rewrite E. cbn [rbind].
      assert (SH2 : Forall2 same_shape l l2).
      { eapply Forall2_shape_trans; [exact SH| |exact S]. eapply shape_fit; eassumption. }
      assert (VP2 : Forall (fun v => Forall2 fit l v) (past ++ [v])).
      { apply Forall_app. split; [exact VP|]. constructor; [exact V1|constructor]. }
      destruct (IH (past ++ [v]) (Z.of_nat (length past) + Z.of_nat (Datatypes.S (length todo))) mid tl l2)
        as (l3 & E3 & HO3).
      * rewrite app_length. cbn. lia.
      * exact R.
      * exact VP2.
      * exact V2.
      * exact H2.
      * split; [exact SH2|]. intros i w j s' x c d Hi Hj Hx Hc.
        destruct (Forall2_nth j S Hj) as ([s1 y] & Hc1 & SA). apply nth_combine in Hc1.
        destruct Hc1 as [Hs1 Hy]. destruct SA as (_ & _ & Sz & _ & G1 & G2). cbn [fst snd] in *.
        assert (Hlen : Z.of_nat c < q_size s1).
        { rewrite Forall_forall in VP2. specialize (VP2 w (nth_error_In _ _ Hi)).
          destruct (Forall2_nth j (shape_fit SH VP2) Hx) as (s2 & Hs2 & FT). rewrite Hs1 in Hs2.
          injection Hs2 as <-. apply nth_error_lt in Hc. unfold fit in FT. lia. }
        rewrite Sz. destruct (Nat.lt_ge_cases i (length past)) as [Hl|Hl].
        -- rewrite nth_error_app1 in Hi by exact Hl. rewrite G2.
           ++ eapply HO; eassumption.
           ++ left. assert (q_size s1 * (Z.of_nat i + 1 + 1) <= q_size s1 * k)
                by (apply Z.mul_le_mono_nonneg_l; unfold k; lia). lia.
        -- rewrite nth_error_app2 in Hi by exact Hl.
           destruct (i - length past)%nat as [|i'] eqn:Ei; [|destruct i'; discriminate Hi].
           injection Hi as <-. rewrite Hy in Hx. injection Hx as <-.
           replace (Z.of_nat i + 1) with k by (unfold k; lia). apply G1. exact Hc.
      * exists l3. rewrite <- app_assoc in HO3. split; [|exact HO3]. rewrite <- E3. f_equal.
        rewrite <- seq_shift, map_map. apply map_ext. intros i. rewrite app_length. cbn. lia.
Qed.

Lemma read_all_ok l rows f tl : Forall (room (Z.of_nat (length rows))) l ->
  Forall (fun v => Forall2 fit l v) rows -> feeds (concat (map (wires l) rows)) f tl ->
  exists l', read_all next (Z.of_nat (length rows)) l f = Ok l' /\ holding rows l l'.
Proof.
  intros R V H. destruct (@read_rows_ok l rows [] (Z.of_nat (length rows)) f tl l) as (l' & E & HO).
  - cbn. lia.
  - exact R.
  - constructor.
  - exact V.
  - exact H.
  - split.
    + clear. induction l; constructor; [repeat split|assumption].
    + intros [|i]; discriminate.
  - exists l'. split; [|exact HO]. unfold read_all, zs. rewrite Nat2Z.id.
    replace (map Z.of_nat (seq 1 (length rows)))
      with (map (fun i => Z.of_nat (@length (list (list D)) []) + Z.of_nat i) (seq 1 (length rows)))
      by (apply map_ext; intros; cbn; lia).
    rewrite E. reflexivity.
Qed.

End Reading.

(** ** Saving *)

Section Saving.
Variable D : Type.
Notation sol := (sol D).

(** The values of a solution at the entity [k]. *)
Definition values (s : sol) (k : Z) : list D :=
  map (fun i => aget (q_m s) (q_size s * k + (i - 1))) (zs (q_size s)).

(** A solution with room for the values of [n] entities. *)
Definition proper (n : Z) (s : sol) : Prop :=
  size_of (q_type s) = Some (q_size s) /\ q_size s * (n + 1) <= alen (q_m s).

Lemma size_cases t n : size_of t = Some n -> (t = 1 /\ n = 1) \/ (t = 2 /\ n = 3) \/ (t = 3 /\ n = 6).
Proof.
  unfold size_of. destruct (Z.eqb_spec t 1), (Z.eqb_spec t 2), (Z.eqb_spec t 3); intros [= <-]; lia.
Qed.

Lemma proper_pos n s : proper n s -> 0 < q_size s.
Proof. intros [H _]. apply size_cases in H. lia. Qed.

Lemma stored_ok n s k : proper n s -> 0 <= k <= n -> stored s k = Ret (values s k).
Proof.
  intros P K. pose proof (proper_pos P) as P0. destruct P as [_ B]. unfold stored. apply mapM_ok.
  intros i Hi. apply zs_In in Hi. apply rd_ok.
  assert (q_size s * (k + 1) <= q_size s * (n + 1)) by (apply Z.mul_le_mono_nonneg_l; lia).
  assert (0 <= q_size s * k) by (apply Z.mul_nonneg_nonneg; lia). lia.
Qed.

Lemma values_length s k : length (values s k) = Z.to_nat (q_size s).
Proof. unfold values. rewrite map_length. apply zs_length. Qed.

Variable canon : mesh D -> Z -> list D -> D * D * D * D * D * D.
Variable ridtyp : bool.

(** The values of a metric, in the canonical basis at the ridges. *)
Definition metric_values (m : mesh D) (s : sol) (k : Z) : list D :=
  if (q_size s =? 6) && ridge ridtyp (p_tag (aget (m_pt m) k)) then six (canon m k (values s k)) else values s k.

Lemma metric_values_length m s k : 0 < q_size s -> length (metric_values m s k) = Z.to_nat (q_size s).
Proof.
  intros P. unfold metric_values. destruct (Z.eqb_spec (q_size s) 6) as [E|]; cbn [andb]; [|apply values_length].
  destruct (ridge _ _).
  - rewrite E. destruct (canon m k (values s k)) as [[[[[? ?] ?] ?] ?] ?]. reflexivity.
  - apply values_length.
Qed.

Definition chosen (metric : bool) (m : mesh D) (s : sol) (k : Z) : list D :=
  if metric then metric_values m s k else values s k.

Lemma written_ok metric m n s k : proper n s -> 0 <= k <= n -> (metric = true -> k < alen (m_pt m)) ->
  written canon ridtyp metric m s k = Ret (wire s (chosen metric m s k)).
Proof.
  intros P K B. pose proof P as [T _]. apply size_cases in T. unfold written, wire, chosen, metric_values.
  destruct (Z.eqb_spec (q_size s) 1) as [E1|E1], (Z.eqb_spec (q_size s) 3) as [E3|E3],
    (Z.eqb_spec (q_size s) 6) as [E6|E6]; cbn [orb andb]; try lia.
  - rewrite (stored_ok P K). destruct metric; reflexivity.
  - rewrite (stored_ok P K). destruct metric; reflexivity.
  - destruct metric.
    + unfold built. rewrite rd_ok by (specialize (B eq_refl); lia). cbn [bind].
      rewrite (stored_ok P K). cbn [bind]. destruct (ridge _ _); reflexivity.
    + rewrite (stored_ok P K). reflexivity.
Qed.

Lemma row_ok metric m n l k : Forall (proper n) l -> 0 <= k <= n -> (metric = true -> k < alen (m_pt m)) ->
  row canon ridtyp metric m l k = Ret (wires l (map (fun s => chosen metric m s k) l)).
Proof.
  intros P K B. unfold row.
  rewrite mapM_ok with (g := fun s => wire s (chosen metric m s k)).
  - cbn [bind]. f_equal. clear. induction l as [|s l IH]; [reflexivity|]. cbn. rewrite IH. reflexivity.
  - intros s Hs. rewrite Forall_forall in P. eapply written_ok; [apply P; exact Hs|exact K|exact B].
Qed.

Lemma vertex_rows_ok metric m l : m_np m < alen (m_pt m) -> Forall (proper (m_np m)) l ->
  vertex_rows canon ridtyp metric m l =
    Ret (map (fun k => wires l (map (fun s => chosen metric m s k) l)) (used_vertices m)).
Proof.
  intros B P. unfold vertex_rows. rewrite (proj2 (Z.ltb_lt _ _) B). cbn [c_assert bind].
  apply mapM_ok. intros k Hk. apply filter_In in Hk. destruct Hk as [Hk _]. apply zs_In in Hk.
  apply row_ok with (n := m_np m); [exact P|lia|lia].
Qed.

Lemma tetra_rows_ok m l : m_ne m < alen (m_tet m) -> Forall (proper (m_ne m)) l ->
  exists r, tetra_rows canon ridtyp m l = Ret r.
Proof.
  intros B P. unfold tetra_rows. rewrite (proj2 (Z.ltb_lt _ _) B). cbn [c_assert bind].
  eexists. apply mapM_ok with (g := fun k => wires l (map (fun s => chosen false m s k) l)).
  intros k Hk. apply filter_In in Hk. destruct Hk as [Hk _]. apply zs_In in Hk.
  apply row_ok with (n := m_ne m); [exact P|lia|discriminate].
Qed.

End Saving.
