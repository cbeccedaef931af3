(** C54, C55: what is written to a Medit solution file and what is read back. *)
From Coq Require Import String ZArith List Lia Bool.
From Verif Require Import CBase IoModel IoLoad IoSave SolModel SolProofs.
Import ListNotations.
Open Scope Z_scope.
Open Scope list_scope.

Set Implicit Arguments.

Lemma Forall2_of_nth A B (R : A -> B -> Prop) (l : list A) : forall l', length l' = length l ->
  (forall j a b, nth_error l j = Some a -> nth_error l' j = Some b -> R a b) -> Forall2 R l l'.
Proof.
  induction l as [|x l IH]; intros [|y l'] L H; try discriminate L; constructor.
  - apply (H O); reflexivity.
  - apply IH; [injection L as L; exact L|]. intros j a b Ha Hb. apply (H (S j)); assumption.
Qed.

Lemma Forall2_len A B (R : A -> B -> Prop) l l' : Forall2 R l l' -> length l = length l'.
Proof. induction 1; cbn; congruence. Qed.

Section Theorems.
Variable D : Type.
Variable d0 : D.
Variable canon : mesh D -> Z -> list D -> D * D * D * D * D * D.
Variable ridtyp : bool.
Notation mesh := (mesh D).
Notation sol := (sol D).
Notation tok := (tok D).

(** ** Specification *)

(** The component [c] of a solution at the entity [k]. *)
Definition comp (s : sol) (k c : Z) : D := aget (q_m s) (q_size s * k + c).

(** The component [c] of a metric at the vertex [k]: at a ridge with special
    storage, that of the metric of the canonical basis. *)
Definition metric_comp (m : mesh) (s : sol) (k c : Z) : D :=
  if (q_size s =? 6) && ridge ridtyp (p_tag (aget (m_pt m) k))
  then nth (Z.to_nat c) (six (canon m k [comp s k 0; comp s k 1; comp s k 2; comp s k 3; comp s k 4; comp s k 5])) d0
  else comp s k c.

(** [s'] is [s] read again: the same type, and the values at the vertices in use,
    in the same order. *)
Definition kept (g : D -> D) (val : sol -> Z -> Z -> D) (m : mesh) (s s' : sol) : Prop :=
  q_type s' = q_type s /\ q_size s' = q_size s /\
  forall i k c, nth_error (used_vertices m) i = Some k -> 0 <= c < q_size s ->
    comp s' (Z.of_nat i + 1) c = g (val s k c).

(** A mesh that has as many vertices as [m] has vertices in use, as the mesh read
    from the file of [m]. *)
Definition compact_of (m m' : mesh) : Prop :=
  m_np m' = zlen (used_vertices m) /\ m_np m' < alen (m_pt m').

(** ** Lemmas *)

Definition val_of (metric : bool) (m : mesh) : sol -> Z -> Z -> D :=
  if metric then metric_comp m else comp.

Lemma values_six s k : q_size s = 6 ->
  values s k = [comp s k 0; comp s k 1; comp s k 2; comp s k 3; comp s k 4; comp s k 5].
Proof. intros E. unfold values, comp. rewrite E. reflexivity. Qed.

Lemma values_nth s k c : 0 <= c < q_size s -> nth_error (values s k) (Z.to_nat c) = Some (comp s k c).
Proof.
  intros H. unfold values, comp. rewrite nth_error_map.
  assert (E : nth_error (zs (q_size s)) (Z.to_nat c) = Some (c + 1)) by (apply zs_nth; lia).
  rewrite E. cbn. do 2 f_equal. lia.
Qed.

Lemma chosen_nth metric m s k c : 0 <= c < q_size s ->
  nth_error (chosen canon ridtyp metric m s k) (Z.to_nat c) = Some (val_of metric m s k c).
Proof.
  intros H. unfold chosen, val_of. destruct metric; [|apply values_nth; exact H].
  unfold metric_values, metric_comp. destruct (Z.eqb_spec (q_size s) 6) as [E|E]; cbn [andb]; [|apply values_nth; exact H].
  destruct (ridge _ _); [|apply values_nth; exact H]. rewrite values_six by exact E.
  apply nth_error_nth'. destruct (canon m k _) as [[[[[? ?] ?] ?] ?] ?]. cbn. lia.
Qed.

Lemma chosen_length metric m s k : 0 < q_size s ->
  length (chosen canon ridtyp metric m s k) = Z.to_nat (q_size s).
Proof. intros H. unfold chosen. destruct metric; [apply metric_values_length; exact H|apply values_length]. Qed.

(** A new solution for the same type. *)
Definition blank (m' : mesh) (s s0 : sol) : Prop :=
  q_type s0 = q_type s /\ q_size s0 = q_size s /\ alen (q_m s0) = q_size s * alen (m_pt m').

Lemma new_sols_ok n (m' : mesh) (l : list sol) : Forall (proper n) l ->
  exists l0, new_sols d0 m' (map (@q_type D) l) = Ok l0 /\ Forall2 (blank m') l l0.
Proof.
  induction 1 as [|s l [P _] H IH]; [exists []; split; [reflexivity|constructor]|].
  destruct IH as (l0 & E & B). cbn. unfold new_sol. rewrite P. cbn. rewrite E. cbn.
  eexists. split; [reflexivity|]. constructor; [|exact B]. repeat split.
Qed.

Lemma blank_room n (m' : mesh) l l0 k : 0 <= k < alen (m_pt m') -> Forall (proper n) l -> Forall2 (blank m') l l0 ->
  Forall (room k) l0.
Proof.
  intros K P. induction 1 as [|s s0 l l0 (_ & S & A) H IH]; constructor.
  - inversion P as [|? ? P1 P2]; subst. pose proof (proper_pos P1). unfold room. rewrite S, A. split; [lia|].
    apply Z.mul_le_mono_nonneg_l; lia.
  - inversion P; subst. apply IH. assumption.
Qed.

Lemma blank_fit (m' : mesh) l l0 v : Forall2 (blank m') l l0 -> Forall2 (@fit D) l v -> Forall2 (@fit D) l0 v.
Proof.
  intros H. revert v. induction H as [|s s0 l l0 (_ & S & A) H IH]; intros v V; inversion V; subst; constructor.
  - unfold fit in *. congruence.
  - apply IH. assumption.
Qed.

Lemma blank_wires (m' : mesh) l l0 v : Forall2 (blank m') l l0 -> wires l0 v = wires l v.
Proof.
  intros H. revert v. induction H as [|s s0 l l0 (_ & S & A) H IH]; intros v; [reflexivity|].
  destruct v as [|x w]; [reflexivity|]. cbn [wires]. rewrite IH. unfold wire. rewrite S. reflexivity.
Qed.

Lemma wires_map (g : D -> D) l : forall v, wires l (map (map g) v) = map g (wires l v).
Proof.
  induction l as [|s l IH]; intros [|x v]; cbn; try reflexivity. rewrite IH, map_app. f_equal.
  unfold wire. destruct (q_size s =? 6); [apply swap23_map|reflexivity].
Qed.

(** The row of the vertex [k]. *)
Definition row_of (g : D -> D) metric (m : mesh) (l : list sol) (k : Z) : list (list D) :=
  map (fun s => map g (chosen canon ridtyp metric m s k)) l.

Lemma row_of_fit g metric m n l k : Forall (proper n) l -> Forall2 (@fit D) l (row_of g metric m l k).
Proof.
  unfold row_of. induction 1 as [|s l P H IH]; constructor.
  - unfold fit. rewrite map_length, chosen_length by (eapply proper_pos; exact P).
    pose proof (proper_pos P). lia.
  - exact IH.
Qed.

Lemma row_of_nth g metric m l k j s c : nth_error l j = Some s -> 0 <= c < q_size s ->
  exists x, nth_error (row_of g metric m l k) j = Some x /\
    nth_error x (Z.to_nat c) = Some (g (val_of metric m s k c)).
Proof.
  intros H C. eexists. split.
  - unfold row_of. rewrite nth_error_map, H. reflexivity.
  - rewrite nth_error_map, chosen_nth by exact C. reflexivity.
Qed.

Lemma holding_kept (m' : mesh) l l0 l' rows : Forall2 (blank m') l l0 -> holding rows l0 l' ->
  length l' = length l /\
  forall j s s', nth_error l j = Some s -> nth_error l' j = Some s' ->
    q_type s' = q_type s /\ q_size s' = q_size s /\
    forall i v x c d, nth_error rows i = Some v -> nth_error v j = Some x -> 0 <= c ->
      nth_error x (Z.to_nat c) = Some d -> comp s' (Z.of_nat i + 1) c = d.
Proof.
  intros B [SH HO]. split.
  - rewrite <- (Forall2_len SH). symmetry. apply (Forall2_len B).
  - intros j s s' Hs Hs'. destruct (Forall2_nth j SH Hs') as (s0 & Hs0 & (T & S & _)).
    destruct (Forall2_nth j B Hs0) as (s1 & Hs1 & (T1 & S1 & _)). rewrite Hs in Hs1. injection Hs1 as <-.
    split; [congruence|]. split; [congruence|]. intros i v x c d Hi Hx C Hc.
    unfold comp. replace c with (Z.of_nat (Z.to_nat c)) by lia. eapply HO; eassumption.
Qed.

(** The loading of the numbers once the header is read. *)
Lemma body_ok F (next : F -> res (D * F)) g metric m m' l l0 f tl :
  Forall (proper (m_np m)) l -> compact_of m m' -> Forall2 (blank m') l l0 ->
  feeds next (map g (concat (map (fun k => wires l (map (fun s => chosen canon ridtyp metric m s k) l))
                                 (used_vertices m)))) f tl ->
  exists l', read_all next (m_np m') l0 f = Ok l' /\ Forall2 (kept g (val_of metric m) m) l l'.
Proof.
  intros P (N & B') B H. set (rows := map (row_of g metric m l) (used_vertices m)).
  assert (LR : Z.of_nat (length rows) = m_np m') by (unfold rows; rewrite map_length, N; reflexivity).
  destruct (@read_all_ok D F next l0 rows f tl) as (l' & E & HO).
  - eapply blank_room; [|exact P|exact B]. lia.
  - apply Forall_forall. intros v Hv. unfold rows in Hv. apply in_map_iff in Hv. destruct Hv as (k & <- & _).
    eapply blank_fit; [exact B|]. eapply row_of_fit; exact P.
  - replace (concat (map (wires l0) rows))
      with (map g (concat (map (fun k => wires l (map (fun s => chosen canon ridtyp metric m s k) l)) (used_vertices m))));
      [exact H|].
    rewrite concat_map, map_map. f_equal. unfold rows. rewrite map_map. apply map_ext. intros k.
    rewrite (blank_wires _ B), <- wires_map. f_equal. rewrite map_map. reflexivity.
  - rewrite LR in E. exists l'. split; [exact E|].
    destruct (holding_kept B HO) as [L K]. apply Forall2_of_nth; [exact L|].
    intros j s s' Hs Hs'. destruct (K j s s' Hs Hs') as (T & S & V). split; [exact T|]. split; [exact S|].
    intros i k c Hi Hc. destruct (@row_of_nth g metric m l k j s c Hs Hc) as (x & Hx & Hd).
    eapply V; [|exact Hx|lia|exact Hd]. unfold rows. rewrite nth_error_map, Hi. reflexivity.
Qed.

(** ** ASCII *)

Section Ascii.
Variables (pr fl : D -> D).

Lemma anum_feeds b l tl : feeds (anum fl b) (map (fun d => if b then fl (pr d) else pr d) l)
  (map (fun d => TD (pr d)) l ++ tl) tl.
Proof.
  induction l as [|d l IH]; [reflexivity|]. cbn [map feeds app]. eexists. split; [|exact IH]. reflexivity.
Qed.

Lemma rdn_map (l : list Z) (r : list tok) : rdn (length l) (map (@TI D) l ++ r) = Ok (l, r).
Proof. induction l as [|z l IH]; [reflexivity|]. cbn. rewrite IH. reflexivity. Qed.

Lemma scan_header np (l : list sol) (r : list tok) : 
  scan_sol (ascii_header 3 np l ++ r) =
    Ok (np, map (@q_type D) (filter (@at_vertices D) l), r).
Proof.
  unfold ascii_header. cbn [app scan_sol]. cbn [String.prefix]. cbn.
  replace (Z.of_nat (length (filter (@at_vertices D) l)) <? 0) with false by (symmetry; apply Z.ltb_ge; lia).
  rewrite Nat2Z.id.
  replace (length (filter (@at_vertices D) l)) with (length (map (@q_type D) (filter (@at_vertices D) l)))
    by apply map_length.
  rewrite <- (map_map (@q_type D) (@TI D)). rewrite rdn_map. reflexivity.
Qed.

Lemma used_zlen (m : mesh) : used m = zlen (used_vertices m).
Proof. reflexivity. Qed.

(** C54.  All the solutions at vertices of a mesh, saved in an ASCII file and read
    again, whatever the solutions at tetrahedra. *)
Theorem solutions_round_trip (m m' : mesh) (l : list sol) :
  m_np m < alen (m_pt m) -> m_ne m < alen (m_tet m) ->
  Forall (proper (m_np m)) (filter (@at_vertices D) l) ->
  Forall (proper (m_ne m)) (filter (@at_tetra D) l) ->
  (0 < length (filter (@at_vertices D) l) <= 100)%nat ->
  compact_of m m' ->
  exists f l', save_all pr canon ridtyp m l = Ret f /\ load_all d0 fl m' f = Ok l' /\
    Forall2 (kept pr comp m) (filter (@at_vertices D) l) l'.
Proof.
  intros B1 B2 P1 P2 LL C. unfold save_all.
  rewrite (@vertex_rows_ok D canon ridtyp false m (filter (@at_vertices D) l) B1 P1). cbn [bind].
  destruct (@tetra_rows_ok D canon ridtyp m _ B2 P2) as [q ->]. cbn [bind].
  set (v := filter (@at_vertices D) l) in *.
  match goal with |- context [Ret (ascii_header 3 (used m) l ++ text pr ?r0 ++ ?tl0)] => set (r := r0); set (tl := tl0) end.
  destruct (@new_sols_ok (m_np m) m' v P1) as (l0 & E0 & BL).
  destruct (@body_ok (list tok) (anum fl false) pr false m m' v l0 (text pr r ++ tl) tl) as (l' & E & K).
  - exact P1.
  - exact C.
  - exact BL.
  - unfold text. apply (@anum_feeds false).
  - eexists. exists l'. split; [reflexivity|]. split; [|exact K].
    unfold load_all. rewrite scan_header. fold v. cbn [rbind]. unfold load_all_body.
    rewrite used_zlen. destruct C as [C1 C2]. rewrite C1, Z.eqb_refl. cbn [negb].
    rewrite map_length. replace (100 <? Z.of_nat (length v)) with false by (symmetry; apply Z.ltb_ge; lia).
    rewrite E0. cbn [rbind]. rewrite <- C1.
    destruct l0; [|exact E]. apply Forall2_len in BL. cbn in BL. lia.
Qed.

(** C54.  A metric, or a displacement in Lagrangian mode. *)
Theorem metric_round_trip lag ver (m m' : mesh) (s : sol) :
  m_np m < alen (m_pt m) -> at_vertices s = true -> proper (m_np m) s ->
  (if lag =? -1 then q_type s = 1 \/ q_type s = 3 else q_type s = 2) -> compact_of m m' ->
  exists f s', save_metric pr canon ridtyp m s = Ret f /\ load_metric d0 fl lag ver m' f = Ok s' /\
    kept (fun d => if ver =? 1 then fl (pr d) else pr d) (metric_comp m) m s s'.
Proof.
  intros B1 A P T C. assert (PP : Forall (proper (m_np m)) [s]) by (constructor; [exact P|constructor]).
  unfold save_metric. rewrite (@vertex_rows_ok D canon ridtyp true m [s] B1 PP). cbn [bind].
  match goal with |- context [Ret (ascii_header 3 (used m) _ ++ text pr ?r0 ++ ?tl0)] => set (r := r0); set (tl := tl0) end.
  destruct (@new_sols_ok (m_np m) m' [s] PP) as (l0 & E0 & BL).
  destruct (@body_ok (list tok) (anum fl (ver =? 1)) (fun d => if ver =? 1 then fl (pr d) else pr d)
              true m m' [s] l0 (text pr r ++ tl) tl) as (l' & E & K).
  - exact PP.
  - exact C.
  - exact BL.
  - unfold text. apply anum_feeds.
  - eexists. inversion K as [|? s' ? ? K1 K2]; subst. inversion K2; subst. exists s'.
    split; [reflexivity|]. split; [|exact K1].
    unfold load_metric. rewrite scan_header. cbn [filter]. rewrite A. cbn [rbind map].
    unfold load_metric_body. rewrite used_zlen. destruct C as [C1 C2]. rewrite C1, Z.eqb_refl. cbn [negb].
    assert (X : (if lag =? -1 then negb (q_type s =? 1) && negb (q_type s =? 3) else negb (q_type s =? 2)) = false).
    { destruct (lag =? -1).
      - destruct T as [-> | ->]; reflexivity.
      - rewrite T. reflexivity. }
    rewrite X. cbn [map new_sols] in E0.
    destruct (new_sol d0 m' (q_type s)) as [s0| |]; cbn [rbind] in *; try discriminate.
    injection E0 as <-. rewrite <- C1, E. reflexivity.
Qed.

(** C54.  A metric is not put on a mesh it does not belong to: with another number
    of vertices, or a type that the mode of the run does not use, the file that was
    saved is refused. *)
Theorem metric_refused lag ver (m m' : mesh) (s : sol) :
  m_np m < alen (m_pt m) -> at_vertices s = true -> proper (m_np m) s ->
  m_np m' <> zlen (used_vertices m) \/
  (if lag =? -1 then q_type s <> 1 /\ q_type s <> 3 else q_type s <> 2) ->
  exists f, save_metric pr canon ridtyp m s = Ret f /\ load_metric d0 fl lag ver m' f = Fail (-1).
Proof.
  intros B1 A P T. assert (PP : Forall (proper (m_np m)) [s]) by (constructor; [exact P|constructor]).
  unfold save_metric. rewrite (@vertex_rows_ok D canon ridtyp true m [s] B1 PP). cbn [bind].
  eexists. split; [reflexivity|].
  unfold load_metric. rewrite scan_header. cbn [filter]. rewrite A. cbn [rbind map].
  unfold load_metric_body. destruct (Z.eqb_spec (m_np m') (used m)) as [E|E]; [|reflexivity]. cbn [negb].
  destruct T as [T|T]; [elim T; exact E|].
  assert (X : (if lag =? -1 then negb (q_type s =? 1) && negb (q_type s =? 3) else negb (q_type s =? 2)) = true).
  { destruct (lag =? -1).
    - destruct (Z.eqb_spec (q_type s) 1), (Z.eqb_spec (q_type s) 3); tauto.
    - destruct (Z.eqb_spec (q_type s) 2); tauto. }
  rewrite X. reflexivity.
Qed.

End Ascii.

(** ** Binary *)

Variable enc : D -> list Z.
Variable dec : list Z -> D.
Hypothesis enc_len : forall d, length (enc d) = 8%nat.
Hypothesis dec_enc : forall d, dec (enc d) = d.

Lemma bdbl_feeds l tl : feeds (bdbl dec) l (concat (map enc l) ++ tl) tl.
Proof.
  induction l as [|d l IH]; [reflexivity|]. cbn [map concat feeds]. exists (concat (map enc l) ++ tl).
  split; [|exact IH]. unfold bdbl. rewrite <- app_assoc.
  destruct (Nat.ltb_spec (length (enc d ++ concat (map enc l) ++ tl)) 8) as [H|_].
  - rewrite app_length, enc_len in H. lia.
  - rewrite <- (enc_len d). rewrite firstn_app, skipn_app, Nat.sub_diag, firstn_all, skipn_all.
    cbn [firstn skipn app]. rewrite app_nil_r, dec_enc. reflexivity.
Qed.

Lemma bdbl_some n : forall f, (8 * n <= length f)%nat -> exists l tl, length l = n /\ feeds (bdbl dec) l f tl.
Proof.
  induction n as [|n IH]; intros f H; [exists [], f; split; reflexivity|].
  destruct (IH (skipn 8 f)) as (l & tl & L & G); [rewrite skipn_length; lia|].
  exists (dec (firstn 8 f) :: l), tl. split; [cbn; lia|]. cbn [feeds]. exists (skipn 8 f). split; [|exact G].
  unfold bdbl. destruct (Nat.ltb_spec (length f) 8); [lia|reflexivity].
Qed.

Definition total (l : list sol) : nat := fold_right (fun s n => (Z.to_nat (q_size s) + n)%nat) O l.

Lemma total_cons s l : total (s :: l) = (Z.to_nat (q_size s) + total l)%nat.
Proof. reflexivity. Qed.

Lemma unwire n l : Forall (proper n) l -> forall L : list D, length L = total l ->
  exists v, Forall2 (@fit D) l v /\ wires l v = L.
Proof.
  induction 1 as [|s l P H IH]; intros L E; [|rewrite total_cons in E].
  - destruct L; [|discriminate]. exists []. split; [constructor|reflexivity].
  - pose proof (proper_pos P). destruct (IH (skipn (Z.to_nat (q_size s)) L)) as (v & F & W).
    { rewrite skipn_length. lia. }
    exists (wire s (firstn (Z.to_nat (q_size s)) L) :: v). split.
    + constructor; [|exact F]. unfold fit. rewrite wire_length, firstn_length. lia.
    + cbn [wires]. rewrite W. unfold wire. destruct (q_size s =? 6); [rewrite swap23_swap23|]; apply firstn_skipn.
Qed.

Lemma unrows n l : Forall (proper n) l -> forall k (L : list D), length L = (k * total l)%nat ->
  exists rows, length rows = k /\ Forall (fun v => Forall2 (@fit D) l v) rows /\ concat (map (wires l) rows) = L.
Proof.
  intros P. induction k as [|k IH]; intros L E; cbn in E.
  - destruct L; [|discriminate]. exists []. repeat split. constructor.
  - destruct (IH (skipn (total l) L)) as (rows & R1 & R2 & R3); [rewrite skipn_length; lia|].
    destruct (unwire P (firstn (total l) L)) as (v & F & W); [rewrite firstn_length; lia|].
    exists (v :: rows). split; [cbn; lia|]. split; [constructor; assumption|]. cbn. rewrite W, R3. apply firstn_skipn.
Qed.

Lemma wires_length metric m n l k : Forall (proper n) l ->
  length (wires l (map (fun s => chosen canon ridtyp metric m s k) l)) = total l.
Proof.
  induction 1 as [|s l P H IH]; [reflexivity|]. rewrite total_cons. cbn [map wires].
  rewrite app_length, wire_length, IH, chosen_length.
  - reflexivity.
  - eapply proper_pos. exact P.
Qed.

Lemma encs_length (l : list D) : length (concat (map enc l)) = (8 * length l)%nat.
Proof. induction l as [|d l IH]; [reflexivity|]. cbn [map concat length]. rewrite app_length, enc_len, IH. lia. Qed.

(** The values read at the first vertex. *)
Definition kept_first (val : sol -> Z -> Z -> D) (m : mesh) (s s' : sol) : Prop :=
  q_type s' = q_type s /\ q_size s' = q_size s /\
  forall k c, nth_error (used_vertices m) 0 = Some k -> 0 <= c < q_size s -> comp s' 1 c = val s k c.

Lemma binary_body metric m m' l l0 tl :
  Forall (proper (m_np m)) l -> compact_of m m' -> Forall2 (blank m') l l0 ->
  exists l', read_all (bdbl dec) (m_np m') l0
      (bytes enc (map (fun k => wires l (map (fun s => chosen canon ridtyp metric m s k) l)) (used_vertices m)) ++ tl)
      = Ok l' /\ Forall2 (kept_first (val_of metric m) m) l l'.
Proof.
  intros P (N & B') B.
  set (w := fun k => wires l (map (fun s => chosen canon ridtyp metric m s k) l)).
  set (f := bytes enc (map w (used_vertices m)) ++ tl).
  assert (X : exists rows tl', length rows = length (used_vertices m) /\ Forall (fun v => Forall2 (@fit D) l v) rows /\
            (forall k, nth_error (used_vertices m) 0 = Some k -> nth_error rows 0 = Some (row_of (fun d => d) metric m l k)) /\
            feeds (bdbl dec) (concat (map (wires l) rows)) f tl').
  { unfold f. destruct (used_vertices m) as [|k u].
    - exists [], tl. repeat split; [constructor|discriminate].
    - cbn [map]. unfold bytes. cbn [map concat]. rewrite <- !app_assoc.
      set (rest := [10] ++ concat (map (fun r => concat (map enc r) ++ [10]) (map w u)) ++ tl).
      destruct (@bdbl_some (length u * total l) rest) as (L & tl' & LL & G).
      { unfold rest. cbn [app length]. rewrite app_length, map_map.
        rewrite concat_len with (n := (8 * total l + 1)%nat).
        - rewrite map_length. nia.
        - intros x Hx. apply in_map_iff in Hx. destruct Hx as (j & <- & _).
          rewrite app_length, encs_length. unfold w. rewrite (@wires_length metric m (m_np m)) by exact P. cbn. lia. }
      destruct (unrows P (length u) L LL) as (rows & R1 & R2 & R3).
      exists (row_of (fun d => d) metric m l k :: rows), tl'. split; [cbn; lia|]. split.
      + constructor; [|exact R2]. eapply row_of_fit. exact P.
      + split; [intros k' [= <-]; reflexivity|]. cbn [map concat]. apply feeds_app. exists rest.
        split; [|rewrite R3; exact G]. replace (wires l (row_of (fun d => d) metric m l k)) with (w k).
        * apply bdbl_feeds.
        * unfold w, row_of. f_equal. apply map_ext. intros s. symmetry. apply map_id. }
  destruct X as (rows & tl' & R1 & R2 & R3 & R4).
  assert (LR : Z.of_nat (length rows) = m_np m') by (rewrite R1, N; reflexivity).
  destruct (@read_all_ok D (list Z) (bdbl dec) l0 rows f tl') as (l' & E & HO).
  - eapply blank_room; [|exact P|exact B]. lia.
  - eapply Forall_impl; [|exact R2]. intros v Hv. eapply blank_fit; eassumption.
  - replace (map (wires l0) rows) with (map (wires l) rows); [exact R4|].
    apply map_ext. intros v. symmetry. apply (blank_wires _ B).
  - rewrite LR in E. exists l'. split; [exact E|].
    destruct (holding_kept B HO) as [L K]. apply Forall2_of_nth; [exact L|].
    intros j s s' Hs Hs'. destruct (K j s s' Hs Hs') as (T & S & V). split; [exact T|]. split; [exact S|].
    intros k c Hk Hc. destruct (@row_of_nth (fun d => d) metric m l k j s c Hs Hc) as (x & Hx & Hd).
    change 1 with (Z.of_nat 0 + 1). eapply V; [apply R3; exact Hk|exact Hx|lia|exact Hd].
Qed.

Lemma le4_ok z r : 0 <= z < 2147483648 -> bint4 (le4 z ++ r) = Ok (z, r).
Proof.
  intros H. unfold bint4, le4. cbn [app]. do 2 f_equal. unfold unle4.
  assert (E : z mod 256 + 256 * (z / 256 mod 256) + 65536 * (z / 65536 mod 256) + 16777216 * (z / 16777216 mod 256) = z).
  { change 65536 with (256 * 256) at 2. change 16777216 with (256 * 256 * 256) at 2.
    rewrite <- !Z.div_div by lia. 
    rewrite (Z.mod_small (z / 256 / 256 / 256)).
    - pose proof (Z.div_mod z 256). pose proof (Z.div_mod (z / 256) 256). pose proof (Z.div_mod (z / 256 / 256) 256). lia.
    - rewrite !Z.div_div by lia. split; [apply Z.div_pos; lia|]. apply Z.div_lt_upper_bound; lia. }
  rewrite E. destruct (Z.ltb_spec z 2147483648); [reflexivity|lia].
Qed.

Lemma le4_any z r : exists z', bint4 (le4 z ++ r) = Ok (z', r).
Proof. eexists. reflexivity. Qed.

Lemma bints_ok (l : list sol) r : Forall (fun s => 0 <= q_type s < 2147483648) l ->
  bints (length l) (concat (map (fun s => le4 (q_type s)) l) ++ r) = Ok (map (@q_type D) l, r).
Proof.
  induction 1 as [|s l H HH IH]; [reflexivity|]. cbn [length bints map concat]. rewrite <- app_assoc, le4_ok by exact H.
  cbn [rbind]. rewrite IH. reflexivity.
Qed.

Lemma header_ok n np (l : list sol) r fuel : Forall (proper n) (filter (@at_vertices D) l) ->
  0 <= np < 2147483648 -> Z.of_nat (length (filter (@at_vertices D) l)) < 2147483648 -> (2 <= fuel)%nat ->
  bhead fuel (binary_header np l ++ r) = Ok (np, map (@q_type D) (filter (@at_vertices D) l), r).
Proof.
  intros P N L F. unfold binary_header. set (v := filter (@at_vertices D) l) in *.
  cbn [map concat]. rewrite app_nil_r. rewrite <- !app_assoc.
  match goal with |- bhead _ ?f = _ => set (whole := f) end.
  unfold bhead. unfold whole at 1. rewrite le4_ok by lia. cbn [rbind Z.eqb Pos.eqb]. rewrite le4_ok by lia. cbn [rbind Z.eqb Pos.eqb].
  destruct fuel as [|[|fuel]]; try lia. cbn [bscan_sol].
  rewrite le4_ok by lia. cbn [rbind Z.eqb Pos.eqb]. rewrite le4_ok by lia. cbn [rbind].
  rewrite le4_ok by lia. cbn [rbind Z.eqb Pos.eqb]. rewrite le4_ok by lia. cbn [rbind Z.eqb Pos.eqb].
  match goal with |- context [bint4 (le4 ?z ++ ?x)] => destruct (le4_any z x) as [z' ->] end. cbn [rbind].
  rewrite le4_ok by lia. cbn [rbind].
  rewrite le4_ok by lia. cbn [rbind].
  destruct (Z.ltb_spec (Z.of_nat (length v)) 0); [lia|]. rewrite Nat2Z.id, bints_ok; [reflexivity|].
  eapply Forall_impl; [|exact P]. intros s [T _]. apply size_cases in T. lia.
Qed.

(** C55, the part that holds.  The binary file is read, with the right types, and
    the values of the first vertex in use are right. *)
Theorem binary_solutions_partial fuel (m m' : mesh) (l : list sol) :
  m_np m < alen (m_pt m) -> m_ne m < alen (m_tet m) ->
  Forall (proper (m_np m)) (filter (@at_vertices D) l) ->
  Forall (proper (m_ne m)) (filter (@at_tetra D) l) ->
  (0 < length (filter (@at_vertices D) l) <= 100)%nat ->
  compact_of m m' -> m_np m' < 2147483648 -> (2 <= fuel)%nat ->
  exists f l', save_all_binary canon ridtyp enc m l = Ret f /\ load_all_binary d0 dec fuel m' f = Ok l' /\
    Forall2 (kept_first comp m) (filter (@at_vertices D) l) l'.
Proof.
  intros B1 B2 P1 P2 LL C N F. unfold save_all_binary.
  rewrite (@vertex_rows_ok D canon ridtyp false m (filter (@at_vertices D) l) B1 P1). cbn [bind].
  destruct (@tetra_rows_ok D canon ridtyp m _ B2 P2) as [q ->]. cbn [bind].
  match goal with |- context [Ret (binary_header (used m) l ++ bytes enc ?r0 ++ ?tl0)] => set (r := r0); set (tl := tl0) end.
  destruct (@new_sols_ok (m_np m) m' _ P1) as (l0 & E0 & BL).
  destruct (@binary_body false m m' (filter (@at_vertices D) l) l0 tl P1 C BL) as (l' & E & K).
  eexists. exists l'. split; [reflexivity|]. split; [|exact K].
  pose proof C as [C1 C2]. unfold load_all_binary. rewrite (@header_ok (m_np m)); [|exact P1| | |exact F].
  - cbn [rbind]. unfold load_all_body.
    rewrite used_zlen, C1, Z.eqb_refl. cbn [negb].
    rewrite map_length. destruct (Z.ltb_spec 100 (Z.of_nat (length (filter (@at_vertices D) l)))); [lia|].
    rewrite E0. cbn [rbind]. rewrite <- C1.
    destruct l0; [|exact E]. apply Forall2_len in BL. cbn in BL. lia.
  - rewrite used_zlen, <- C1. split; [|exact N]. rewrite C1. unfold zlen. lia.
  - lia.
Qed.

End Theorems.

(** ** Concrete cases

    A double is the integer of its 64 bits. *)

Definition le8 (z : Z) : list Z := map (fun i => z / 256 ^ i mod 256) [0; 1; 2; 3; 4; 5; 6; 7].
Definition unle8 (l : list Z) : Z := fold_right (fun b r => b + 256 * r) 0 l.

Definition cell {A} (d : A) (l : list A) : arr A :=
  mkArr (Z.of_nat (length l)) (fun k => nth (Z.to_nat k) l d).
Definition vtx (t : Z) : pt Z := mkPt (0, 0, 0) (0, 0, 0) 0 0 0 false t.
Definition no_elts : arr elt := cell (mkElt [] 0 []) [mkElt [] 0 []].
Definition points (n : Z) (l : list (pt Z)) (ne : Z) (t : arr elt) : mesh Z :=
  mkMesh n (cell (vtx 0) l) 0 (cell (0, 0, 0) []) ne t 0 no_elts 0 no_elts 0 no_elts 0 no_elts.

(** Four vertices of which the second is deleted and the fourth is a ridge; a
    tetrahedron. *)
Definition before : mesh Z :=
  points 4 [vtx 0; vtx 0; vtx MG_NUL; vtx 0; vtx MG_GEO] 1
    (cell (mkElt [] 0 []) [mkElt [] 0 []; mkElt [1; 3; 4; 1] 0 [0]]).
Definition after : mesh Z := points 3 [vtx 0; vtx 0; vtx 0; vtx 0] 0 no_elts.

Definition scalar : sol Z := mkSol Vertex 1 1 (cell 0 [0; 11; 12; 13; 14]).
Definition at_elements : sol Z := mkSol Tetrahedron 2 3 (cell 0 [0; 0; 0; 77; 78; 79]).
Definition tensor : sol Z := mkSol Noentity 3 6
  (cell 0 [0; 0; 0; 0; 0; 0; 101; 102; 103; 104; 105; 106; 0; 0; 0; 0; 0; 0; 301; 302; 303; 304; 305; 306;
           401; 402; 403; 404; 405; 406]).
Definition tens (z : Z) : Z := 10 * (z / 10).
(** The metric of the canonical basis at a ridge. *)
Definition sums (m : mesh Z) (k : Z) (l : list Z) : Z * Z * Z * Z * Z * Z :=
  (fold_right Z.add 0 l, k, 10, 20, 30, 40).

Example case_solutions : exists f l', save_all tens sums true before [tensor; at_elements; scalar] = Ret f /\
  load_all 0 (fun z => z) after f = Ok l' /\ Forall2 (kept tens (@comp Z) before) [tensor; scalar] l'.
Proof.
  apply (@solutions_round_trip Z 0 sums true tens (fun z => z) before after [tensor; at_elements; scalar]);
    try (vm_compute; reflexivity); try (cbn; lia).
  - repeat constructor; vm_compute; discriminate.
  - repeat constructor; vm_compute; discriminate.
  - split; vm_compute; reflexivity.
Qed.

Example case_metric : exists f s', save_metric tens sums true before tensor = Ret f /\
  load_metric 0 (fun z => z) (-1) 2 after f = Ok s' /\
  kept (fun d => if 2 =? 1 then tens d else tens d) (metric_comp 0 sums true before) before tensor s'.
Proof.
  apply (@metric_round_trip Z 0 sums true tens (fun z => z) (-1) 2 before after tensor);
    try (vm_compute; reflexivity).
  - split; [reflexivity | vm_compute; discriminate].
  - right. reflexivity.
  - split; vm_compute; reflexivity.
Qed.

(** The same file on the mesh before packing, which has one more vertex, or read
    as a displacement. *)
Example metric_refused_case :
  exists f, save_metric tens sums true before tensor = Ret f /\
    load_metric 0 (fun z => z) (-1) 2 before f = Fail (-1) /\
    load_metric 0 (fun z => z) 1 2 after f = Fail (-1).
Proof.
  assert (B : m_np before < alen (m_pt before)) by (vm_compute; reflexivity).
  assert (A : at_vertices tensor = true) by (vm_compute; reflexivity).
  assert (P : proper (m_np before) tensor) by (split; [reflexivity | vm_compute; discriminate]).
  destruct (@metric_refused Z 0 sums true tens (fun z => z) (-1) 2 before before tensor B A P) as (f & E & R).
  { left. vm_compute. discriminate. }
  destruct (@metric_refused Z 0 sums true tens (fun z => z) 1 2 before after tensor B A P) as (f' & E' & R').
  { right. vm_compute. discriminate. }
  exists f. rewrite E in E'. injection E' as <-. auto.
Qed.

(** The same, computed. *)
Definition contents (s : sol Z) : list Z := map (aget (q_m s)) (map (fun i => i - 1) (zs (alen (q_m s)))).

Definition metric_again : res (list Z) :=
  match save_metric tens sums true before tensor with
  | Ret f => rbind (load_metric 0 (fun z => z) (-1) 2 after f) (fun s => Ok (contents s))
  | Stuck => Bad
  end.

Example metric_again_shown : metric_again =
  Ok [0; 0; 0; 0; 0; 0; 100; 100; 100; 100; 100; 100; 300; 300; 300; 300; 300; 300; 2420; 0; 10; 20; 30; 40].
Proof. vm_compute. reflexivity. Qed.

(** A double as its eight bytes. *)
Definition D8 : Type := (Z * Z * Z * Z * Z * Z * Z * Z)%type.
Definition enc8 (d : D8) : list Z := let '(a, b, c, e, f, g, h, i) := d in [a; b; c; e; f; g; h; i].
Definition dbl (z : Z) : D8 := (z, 0, 0, 0, 0, 0, 0, 64).
Definition dec8 (l : list Z) : D8 :=
  match l with [a; b; c; e; f; g; h; i] => (a, b, c, e, f, g, h, i) | _ => dbl 0 end.
Definition before8 : mesh D8 :=
  mkMesh 2 (cell (mkPt (dbl 0, dbl 0, dbl 0) (dbl 0, dbl 0, dbl 0) 0 0 0 false 0)
              [mkPt (dbl 0, dbl 0, dbl 0) (dbl 0, dbl 0, dbl 0) 0 0 0 false 0;
               mkPt (dbl 0, dbl 0, dbl 0) (dbl 0, dbl 0, dbl 0) 0 0 0 false MG_NUL;
               mkPt (dbl 0, dbl 0, dbl 0) (dbl 0, dbl 0, dbl 0) 0 0 0 false 0])
    0 (cell (dbl 0, dbl 0, dbl 0) []) 0 no_elts 0 no_elts 0 no_elts 0 no_elts 0 no_elts.
Definition vector8 : sol D8 := mkSol Vertex 2 3 (cell (dbl 0) (map dbl [0; 0; 0; 1; 2; 3; 4; 5; 6])).

Example case_binary : exists f l',
  save_all_binary (fun _ _ _ => (dbl 0, dbl 0, dbl 0, dbl 0, dbl 0, dbl 0)) false enc8 before8 [vector8] = Ret f /\
  load_all_binary (dbl 0) dec8 2 (mkMesh 1 (m_pt before8) 0 (m_xn before8) 0 no_elts 0 no_elts 0 no_elts 0 no_elts 0 no_elts) f
    = Ok l' /\ Forall2 (kept_first (@comp D8) before8) [vector8] l'.
Proof.
  apply binary_solutions_partial;
    try (vm_compute; reflexivity); try (cbn; lia).
  - intros [[[[[[[? ?] ?] ?] ?] ?] ?] ?]. reflexivity.
  - intros [[[[[[[? ?] ?] ?] ?] ?] ?] ?]. reflexivity.
  - repeat constructor; vm_compute; discriminate.
  - constructor.
  - split; vm_compute; reflexivity.
Qed.

(** ** What does not hold *)

(** C55.  The binary file of a scalar solution at the vertices 1, 3 and 4: the
    second and the third values read are not those that were written. *)
Definition binary_again : res (list Z) :=
  match save_metric_binary sums true le8 before scalar with
  | Ret f => rbind (load_metric_binary 0 unle8 2 (-1) after f) (fun s => Ok (contents s))
  | Stuck => Bad
  end.

Theorem binary_metric_refuted :
  (forall z, In z (contents scalar) -> unle8 (le8 z) = z) /\
  exists f s', save_metric_binary sums true le8 before scalar = Ret f /\
    load_metric_binary 0 unle8 2 (-1) after f = Ok s' /\
    nth_error (used_vertices before) 1 = Some 3 /\
    comp s' 1 0 = comp scalar 1 0 /\ comp s' 2 0 <> comp scalar 3 0 /\ comp s' 3 0 <> comp scalar 4 0.
Proof.
  split.
  - intros z H. vm_compute in H. repeat (destruct H as [<- | H]; [vm_compute; reflexivity|]). destruct H.
  - eexists. eexists. split; [vm_compute; reflexivity|]. split; [vm_compute; reflexivity|].
    vm_compute. repeat split; discriminate.
Qed.

Example binary_again_shown : binary_again = Ok [0; 11; 13 * 256 + 10; 14 * 65536 + 10 * 256].
Proof. vm_compute. reflexivity. Qed.

(** C56.  A file without SolAtVertices: the loaders read variables that were never
    set, whatever the mesh. *)
Definition no_vertices : list (tok Z) := [TW "MeshVersionFormatted"; TI 2; TW "Dimension"; TI 3; TW "End"]%string.

Theorem load_sol_initialised_refuted :
  exists f : list (tok Z), forall lag ver m, load_metric 0 (fun z => z) lag ver m f = Bad /\
    load_all 0 (fun z => z) m f = Bad.
Proof. exists no_vertices. intros. split; reflexivity. Qed.

(** C56.  Solutions at tetrahedra only, saved by MMG3D_saveAllSols:
    MMG3D_loadAllSols reads the version of a solution that does not exist. *)
Theorem load_all_saved_refuted :
  exists f, save_all tens sums true before [at_elements] = Ret f /\
    load_all 0 (fun z => z) after f = Bad.
Proof. eexists. split; vm_compute; reflexivity. Qed.

(** C56.  A binary file that is read for ever. *)
Definition endless_sol : list Z := concat (map le4 [1; 2; 99; 8]).

Theorem load_sol_ends_refuted :
  forall fuel lag m, load_metric_binary 0 unle8 fuel lag m endless_sol = Bad.
Proof.
  assert (B : forall fuel, bscan_sol fuel endless_sol (concat (map le4 [99; 8])) = Bad).
  { induction fuel as [|fuel IH]; [reflexivity|]. exact IH. }
  intros. unfold load_metric_binary, bhead. cbn -[bscan_sol].
  change [99; 0; 0; 0; 8; 0; 0; 0] with (concat (map le4 [99; 8])).
  change [1; 0; 0; 0; 2; 0; 0; 0; 99; 0; 0; 0; 8; 0; 0; 0] with endless_sol.
  try rewrite B. reflexivity.
Qed.

Print Assumptions solutions_round_trip.
Print Assumptions metric_round_trip.
Print Assumptions metric_refused.
Print Assumptions binary_solutions_partial.
Print Assumptions binary_metric_refuted.
