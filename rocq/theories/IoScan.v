(** The first reading of a Medit file made of sections: every section is found,
    whatever their order.  Used by [PropsIo]. *)
From Coq Require Import String ZArith List Lia Bool.
From Verif Require Import CBase IoModel.
Import ListNotations.
Open Scope Z_scope.
Open Scope list_scope.

Set Implicit Arguments.

Section Scan.
Variable D : Type.
Variable pr : D -> D.
Notation tok := (tok D).
Notation sec := (sec D).

Definition number_tok (t : tok) : Prop := match t with TW _ => False | _ => True end.

Lemma scan_skip (l : list tok) h r :
  Forall number_tok l -> scan (l ++ r) h = scan r h.
Proof.
  induction l as [|t l IH]; intros F; [reflexivity|].
  inversion F as [|? ? Ht Fl]; subst. destruct t; cbn in *; [easy| |]; apply IH; exact Fl.
Qed.

Definition keys (w : sec -> option key) (l : list sec) : list key :=
  flat_map (fun s => match w s with Some k => [k] | None => [] end) l.

Definition wkey (s : sec) : option key :=
  match word_of (s_kw s) with WKey k => Some k | _ => None end.

(** What a section holds in the gathered data. *)
Definition found (text : sec -> list tok) (w : sec -> option key)
  (l : list sec) (h h' : hdr D) : Prop :=
  h_ver h' = h_ver h /\
  (forall k, ~ In k (keys w l) -> h_sec h' k = h_sec h k) /\
  (forall s k, In s l -> w s = Some k -> exists tl, h_sec h' k = (s_n s, text s ++ tl)).

Lemma found_nil text w h : found text w [] h h.
Proof. split; [reflexivity|]. split; [reflexivity|]. intros s k []. Qed.

Lemma found_cons text w s l h h1 h' :
  NoDup (keys w (s :: l)) ->
  h_ver h1 = h_ver h ->
  (forall k, w s <> Some k -> h_sec h1 k = h_sec h k) ->
  (forall k, w s = Some k -> exists tl, h_sec h1 k = (s_n s, text s ++ tl)) ->
  found text w l h1 h' -> found text w (s :: l) h h'.
Proof.
  intros ND V O S (V' & O' & S').
  assert (ND' : NoDup (keys w l) /\ forall k, w s = Some k -> ~ In k (keys w l)).
  { unfold keys in *. cbn [flat_map] in ND. destruct (w s) as [k0|].
    - cbn in ND. inversion ND; subst. split; [assumption|]. intros k [= <-]. assumption.
    - cbn in ND. split; [assumption|]. discriminate. }
  destruct ND' as [ND' NI]. split; [congruence|]. split.
  - intros k Hk. unfold keys in Hk. cbn [flat_map] in Hk. fold (keys w l) in Hk.
    rewrite in_app_iff in Hk. rewrite O' by tauto. apply O. intros E. rewrite E in Hk.
    apply Hk. left. left. reflexivity.
  - intros s' k [-> | Hin] W.
    + rewrite O' by (apply NI; exact W). apply S. exact W.
    + apply S'; assumption.
Qed.

(** A section written in an ASCII file. *)
Definition asec_ok (s : sec) : Prop :=
  String.prefix "End" (s_kw s) = false /\
  (word_of (s_kw s) = WSkip \/ exists k, word_of (s_kw s) = WKey k) /\
  Forall number_tok (concat (s_rows s)).

Lemma printed_number l : Forall number_tok l -> Forall number_tok (map (printed pr) l).
Proof.
  induction 1 as [|t l H F IH]; cbn; constructor; [|assumption].
  destruct t; cbn in *; exact H.
Qed.

Lemma scan_sec s h r :
  asec_ok s -> (wkey s = Some KNor -> fst (h_sec h KNor) = 0) ->
  scan (atext pr s ++ r) h =
  scan r (match wkey s with
          | Some k => put h k (s_n s, map (printed pr) (concat (s_rows s)) ++ r)
          | None => h end).
Proof.
  intros (E & W & F) N. unfold atext, wkey in *. cbn [app scan]. rewrite E.
  pose proof (printed_number F) as F'.
  destruct W as [-> | [k W]].
  - cbn [scan]. apply scan_skip. exact F'.
  - rewrite W in *.
    destruct k; try (apply scan_skip; exact F').
    rewrite (N eq_refl), Z.eqb_refl. apply scan_skip. exact F'.
Qed.

Lemma scan_secs l : forall fin h,
  Forall asec_ok l -> NoDup (keys wkey l) ->
  (In KNor (keys wkey l) -> fst (h_sec h KNor) = 0) ->
  exists h', scan (concat (map (atext pr) l) ++ fin) h = scan fin h' /\
             found (fun s => map (printed pr) (concat (s_rows s))) wkey l h h'.
Proof.
  induction l as [|s l IH]; intros fin h F ND N.
  - exists h. split; [reflexivity | apply found_nil].
  - inversion F as [|? ? Hs Fl]; subst. cbn [map concat]. rewrite <- app_assoc.
    assert (Ns : wkey s = Some KNor -> fst (h_sec h KNor) = 0).
    { intros W. apply N. unfold keys. cbn [flat_map]. rewrite W. left. reflexivity. }
    rewrite (@scan_sec s h _ Hs Ns).
    assert (NDl : NoDup (keys wkey l)).
    { unfold keys in *. cbn [flat_map] in ND. destruct (wkey s); [inversion ND|]; assumption. }
    match goal with |- exists _, scan _ ?h1 = _ /\ _ => set (h1' := h1) end.
    assert (Nl : In KNor (keys wkey l) -> fst (h_sec h1' KNor) = 0).
    { intros Hin. unfold h1', keys in *. cbn [flat_map] in ND, N.
      destruct (wkey s) as [k|].
      - cbn in ND. inversion ND; subst. unfold put. cbn [h_sec].
        destruct (key_eq_dec KNor k); [subst; contradiction|].
        apply N. right. exact Hin.
      - apply N. exact Hin. }
    destruct (IH fin h1' Fl NDl Nl) as (h' & R & FD). exists h'. split; [exact R|].
    apply found_cons with (h1 := h1'); [exact ND | .. ].
    + unfold h1'. destruct (wkey s); reflexivity.
    + intros k W. unfold h1'. destruct (wkey s) as [k0|]; [|reflexivity].
      cbn [put h_sec]. destruct (key_eq_dec k k0); [subst; congruence|reflexivity].
    + intros k W. unfold h1'. rewrite W. cbn [put h_sec].
      destruct (key_eq_dec k k); [|congruence]. eexists. reflexivity.
    + exact FD.
Qed.

(** ** Binary files *)

Definition tot (l : list tok) : Z := fold_right (fun t n => size t + n) 0 l.

Lemma size_pos (t : tok) : 0 < size t.
Proof. destruct t; cbn; lia. Qed.

Lemma tot_cons t l : tot (t :: l) = size t + tot l.
Proof. reflexivity. Qed.

Lemma tot_nonneg l : 0 <= tot l.
Proof.
  induction l as [|t l IH]; [cbn; lia|]. rewrite tot_cons. pose proof (size_pos t). lia.
Qed.

Lemma tot_app l r : tot (l ++ r) = tot l + tot r.
Proof. induction l as [|t l IH]; [reflexivity|]. cbn [app]. rewrite !tot_cons, IH. lia. Qed.

Lemma seek_app l r : seek (l ++ r) (tot l) = Some r.
Proof.
  induction l as [|t l IH].
  - destruct r; reflexivity.
  - pose proof (size_pos t). pose proof (tot_nonneg l). rewrite tot_cons.
    cbn [seek app]. destruct (Z.eqb_spec (size t + tot l) 0); [lia|].
    destruct (Z.ltb_spec (size t + tot l) (size t)); [lia|].
    replace (size t + tot l - size t) with (tot l) by lia. exact IH.
Qed.

Lemma jump_app l r : jump (l ++ r) (tot l) = Some r.
Proof.
  unfold jump. pose proof (tot_nonneg l). destruct (Z.ltb_spec (tot l) 0); [lia|].
  apply seek_app.
Qed.

Definition bkey (s : sec) : option key := option_map fst (code (s_code s)).

(** A section whose announced size is its size. *)
Definition bsec_ok (s : sec) : Prop :=
  s_code s <> 54 /\ tot (concat (s_rows s)) = 4 * s_width s * s_n s.

Lemma bscan_secs l : forall n pre b h,
  Forall bsec_ok l -> NoDup (keys bkey l) -> b = tot pre ->
  (forall k, In k (keys bkey l) -> fst (h_sec h k) = 0) ->
  exists h', bscan (S (length l) + n) (pre ++ btext b l) (btext b l) 3 h = Ok h' /\
             found (fun s => concat (s_rows s)) bkey l h h'.
Proof.
  induction l as [|s l IH]; intros n pre b h F ND Hb N.
  - exists h. split; [reflexivity | apply found_nil].
  - inversion F as [|? ? Hs Fl]; subst. destruct Hs as [H54 Hsz].
    assert (NDl : NoDup (keys bkey l)).
    { unfold keys in *. cbn [flat_map] in ND. destruct (bkey s); [inversion ND|]; assumption. }
    cbn [btext]. cbn [length plus]. set (b := tot pre + (3 + s_width s * s_n s) * 4).
    set (rows := concat (s_rows s)).
    set (pre' := pre ++ TI (s_code s) :: TI b :: TI (s_n s) :: rows).
    assert (Eb : b = tot pre').
    { unfold pre'. rewrite tot_app, !tot_cons. cbn [size].
      change (tot rows) with (tot (concat (s_rows s))). rewrite Hsz. unfold b. ring. }
    assert (Ew : pre ++ TI (s_code s) :: TI b :: TI (s_n s) :: rows ++ btext b l
                 = pre' ++ btext b l).
    { unfold pre'. rewrite <- app_assoc. reflexivity. }
    rewrite Ew.
    match goal with |- exists _, bscan ?fl ?w ?f ?d ?h = _ /\ _ =>
      change (bscan fl w f d h) with
        (bscan (S (S (length l) + n)) w f d h) end.
    cbn [bscan]. destruct (Z.eqb_spec (s_code s) 54); [contradiction|].
    cbn [Z.eqb andb bint rbind].
    assert (Ej : jump (pre' ++ btext b l) b = Some (btext b l)).
    { generalize (btext b l). intros r. rewrite Eb. apply jump_app. }
    rewrite Ej.
    destruct (code (s_code s)) as [[k once]|] eqn:EC.
    + assert (EK : bkey s = Some k) by (unfold bkey; rewrite EC; reflexivity).
      assert (E0 : fst (h_sec h k) = 0).
      { apply N. unfold keys. cbn [flat_map]. rewrite EK. left. reflexivity. }
      rewrite E0. cbn [Z.eqb negb]. rewrite andb_false_r.
      set (h1 := put h k (s_n s, rows ++ btext b l)).
      assert (N1 : forall k', In k' (keys bkey l) -> fst (h_sec h1 k') = 0).
      { intros k' Hin. unfold h1. cbn [put h_sec]. unfold keys in ND, N. cbn [flat_map] in ND, N.
        rewrite EK in ND, N. cbn in ND. inversion ND; subst.
        destruct (key_eq_dec k' k) as [->|]; [contradiction|]. apply N. right. exact Hin. }
      destruct (IH n pre' b h1 Fl NDl Eb N1) as (h' & R & FD). exists h'. split; [exact R|].
      apply found_cons with (h1 := h1); [exact ND | .. ].
      * reflexivity.
      * intros k' W. unfold h1. cbn [put h_sec]. destruct (key_eq_dec k' k); [congruence|reflexivity].
      * intros k' W. rewrite EK in W. injection W as <-. unfold h1. cbn [put h_sec].
        destruct (key_eq_dec k k); [|congruence]. eexists. reflexivity.
      * exact FD.
    + assert (EK : bkey s = None) by (unfold bkey; rewrite EC; reflexivity).
      assert (N1 : forall k', In k' (keys bkey l) -> fst (h_sec h k') = 0).
      { intros k' Hin. apply N. unfold keys. cbn [flat_map]. rewrite EK. exact Hin. }
      destruct (IH n pre' b h Fl NDl Eb N1) as (h' & R & FD). exists h'. split; [exact R|].
      apply found_cons with (h1 := h); [exact ND | .. ].
      * reflexivity.
      * reflexivity.
      * intros k' W. congruence.
      * exact FD.
Qed.

End Scan.
