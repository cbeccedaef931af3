(** From the sections of a content to the loaded mesh, in ASCII and in binary.
    Used by [PropsIo]. *)
From Coq Require Import String ZArith List Lia Bool.
From Verif Require Import CBase IoModel IoScan IoLoad IoBody IoSave.
Import ListNotations.
Open Scope Z_scope.
Open Scope list_scope.

Set Implicit Arguments.

Section Trip.
Variable D : Type.
Notation V3 := (D * D * D)%type.
Notation tok := (tok D).
Notation sec := (sec D).
Notation hdr := (hdr D).
Notation content := (content D).

Definition pr3 (g : D -> D) (c : V3) : V3 := let '(x, y, z) := c in (g x, g y, g z).

(** The content with its numbers as they are printed. *)
Definition as_printed (g : D -> D) (c : content) : content :=
  mkContent (map (fun x => (pr3 g (fst x), snd x)) (c_pts c)) (c_reqv c) (c_parv c) (c_cor c)
    (c_tri c) (c_reqt c) (c_part c) (c_quad c) (c_reqq c) (c_parq c)
    (c_edge c) (c_rid c) (c_reqa c) (c_para c) (c_tet c) (c_reqe c) (c_pare c) (c_pri c)
    (map (pr3 g) (c_nor c)) (c_nat c).

(** The content without its parallel entities. *)
Definition no_par (c : content) : content :=
  mkContent (c_pts c) (c_reqv c) [] (c_cor c)
    (c_tri c) (c_reqt c) [] (c_quad c) (c_reqq c) []
    (c_edge c) (c_rid c) (c_reqa c) [] (c_tet c) (c_reqe c) [] (c_pri c)
    (c_nor c) (c_nat c).

Lemma ints_printed pr (l : list Z) : map (printed pr) (map TI l) = (map TI l : list tok).
Proof. rewrite map_map. reflexivity. Qed.

Lemma concat_printed A pr (f g : A -> list tok) l :
  (forall x, map (printed pr) (f x) = g x) ->
  map (printed pr) (concat (map f l)) = concat (map g l).
Proof.
  intros H. induction l as [|x l IH]; [reflexivity|]. cbn. rewrite map_app, H, IH. reflexivity.
Qed.

Lemma printed_rows pr c k : concat (rows (as_printed pr c) k) = map (printed pr) (concat (rows c k)).
Proof.
  assert (V : forall l, map (printed pr) (concat (map (vrow D) l)) = concat (map (vrow D) l)).
  { intros l. apply concat_printed. intros x. unfold vrow. rewrite map_app, ints_printed. reflexivity. }
  assert (O : forall l, map (printed pr) (concat (map (one D) l)) = concat (map (one D) l)).
  { intros l. apply concat_printed. reflexivity. }
  destruct k; cbn [rows as_printed c_pts c_reqv c_parv c_cor c_tri c_reqt c_part
      c_quad c_reqq c_parq c_edge c_rid c_reqa c_para c_tet c_reqe c_pare c_pri c_nor c_nat];
    rewrite ?V, ?O; try reflexivity.
  - rewrite map_map. symmetry. apply concat_printed. intros [[[x y] z] r]. reflexivity.
  - rewrite map_map. symmetry. apply concat_printed. intros [[x y] z]. reflexivity.
  - symmetry. apply concat_printed. reflexivity.
Qed.

Lemma printed_zlen pr c k : zlen (rows (as_printed pr c) k) = zlen (rows c k).
Proof. destruct k; cbn; rewrite ?zlen_map; reflexivity. Qed.

Lemma rows_number c k : Forall (@number_tok D) (concat (rows c k)).
Proof.
  assert (G : forall A (f : A -> list tok) l, (forall x, Forall (@number_tok D) (f x)) ->
    Forall (@number_tok D) (concat (map f l))).
  { intros A f l H. induction l as [|x l IH]; [constructor|]. cbn. apply Forall_app. split; [apply H|exact IH]. }
  assert (V : forall x, Forall (@number_tok D) (vrow D x)).
  { intros [l r]. unfold vrow. cbn [fst snd]. apply Forall_app. split; [|repeat constructor].
    induction l; cbn; constructor; [exact I|assumption]. }
  destruct k; cbn [rows]; apply G; try exact V.
  all: try solve [intros x; unfold one, irow; repeat constructor].
  - intros [[[x y] z] r]. repeat constructor.
  - intros [[x y] z]. repeat constructor.
Qed.

Lemma keys_filter w p (l : list sec) : NoDup (keys w l) -> NoDup (keys w (filter p l)).
Proof.
  assert (I : forall k l, In k (keys w (filter p l)) -> In k (keys w l)).
  { intros k l0. unfold keys. rewrite !in_flat_map. intros (s & Hs & Hk). apply filter_In in Hs.
    exists s. tauto. }
  induction l as [|s l IH]; intros H; [constructor|].
  unfold keys in H. cbn [flat_map] in H. cbn [filter]. destruct (w s) as [k|] eqn:W.
  - inversion H as [|? ? H1 H2]; subst. destruct (p s).
    + unfold keys. cbn [flat_map]. rewrite W. constructor; [|apply IH; exact H2].
      intros Hin. apply H1. apply I. exact Hin.
    + apply IH. exact H2.
  - destruct (p s); [unfold keys; cbn [flat_map]; rewrite W|]; apply IH; exact H.
Qed.

Lemma holds_nil (h : hdr) k : fst (h_sec h k) = 0 -> holds h k [].
Proof. intros H. exists (snd (h_sec h k)). cbn. rewrite <- H. destruct (h_sec h k). reflexivity. Qed.

Lemma NoDup_keys_unique w (l : list sec) s s' k :
  NoDup (keys w l) -> In s l -> In s' l -> w s = Some k -> w s' = Some k -> s = s'.
Proof.
  induction l as [|x l IH]; intros ND H H' W W'; [destruct H|].
  unfold keys in ND. cbn [flat_map] in ND.
  assert (Q : forall t, In t l -> w t = Some k -> In k (keys w l)).
  { intros t Ht Wt. apply in_flat_map. exists t. rewrite Wt. split; [exact Ht|left; reflexivity]. }
  destruct H as [<- |H], H' as [<- |H'].
  - reflexivity.
  - exfalso. rewrite W in ND. cbn in ND. apply NoDup_cons_iff in ND. apply (proj1 ND). eapply Q; eassumption.
  - exfalso. rewrite W' in ND. cbn in ND. apply NoDup_cons_iff in ND. apply (proj1 ND). eapply Q; eassumption.
  - apply IH; try assumption. destruct (w x); [inversion ND|]; assumption.
Qed.

Lemma holds_found text w p (l : list sec) (h h' : hdr) s k R :
  found text w (filter p l) h h' -> NoDup (keys w l) -> In s l -> w s = Some k ->
  (p s = true -> s_n s = zlen R /\ text s = concat R) ->
  (p s = false -> R = [] /\ fst (h_sec h k) = 0) -> holds h' k R.
Proof.
  intros (_ & O & S) ND Hs W T F. destruct (p s) eqn:P.
  - destruct (T eq_refl) as [E1 E2]. destruct (S s k) as (tl & E).
    + apply filter_In. tauto.
    + exact W.
    + exists tl. rewrite E, E1, E2. reflexivity.
  - destruct (F eq_refl) as [-> E]. apply holds_nil. rewrite O; [exact E|].
    intros Hin. apply in_flat_map in Hin. destruct Hin as (s' & Hs' & Hk). apply filter_In in Hs'.
    destruct (w s') as [k'|] eqn:W'; [|destruct Hk]. destruct Hk as [-> |[]].
    assert (s = s') by (eapply NoDup_keys_unique; try eassumption; tauto). subst s'.
    destruct Hs' as [_ Hs']. congruence.
Qed.

Lemma holds_absent text w (l : list sec) (h h' : hdr) k :
  found text w l h h' -> ~ In k (keys w l) -> fst (h_sec h k) = 0 -> holds h' k [].
Proof. intros (_ & O & _) N E. apply holds_nil. rewrite O by exact N. exact E. Qed.

Lemma layout_wkeys on nn nr nat ntg tg tgat c :
  keys (@wkey D) (layout on nn nr nat ntg tg tgat c) =
  [KVert; KCor; KReqV; KParV; KTet; KReqE; KParE; KPri; KNor; KNat; KTri; KReqT; KParT;
   KQuad; KReqQ; KParQ; KEdge; KRid; KReqA; KParA].
Proof. reflexivity. Qed.

Lemma layout_bkeys on nn nr nat ntg tg tgat c :
  keys (@bkey D) (layout on nn nr nat ntg tg tgat c) =
  [KVert; KCor; KReqV; KTet; KReqE; KPri; KNor; KNat; KTri; KReqT;
   KQuad; KReqQ; KEdge; KRid; KReqA].
Proof. reflexivity. Qed.

Lemma NoDup_dec_keys (l : list key) : nodup key_eq_dec l = l -> NoDup l.
Proof. intros <-. apply NoDup_nodup. Qed.

(** The marks of an empty kind of element are empty. *)
Definition marks_empty (c : content) : Prop :=
  (c_tri c = [] -> c_reqt c = [] /\ c_part c = []) /\
  (c_quad c = [] -> c_reqq c = [] /\ c_parq c = []) /\
  (c_edge c = [] -> c_rid c = [] /\ c_reqa c = [] /\ c_para c = []).

Lemma zlen_nil A (l : list A) : zlen l = 0 -> l = [].
Proof. destruct l; [reflexivity|]. unfold zlen. cbn. lia. Qed.

Lemma sect_off pr c kw cd w asc b k :
  s_on (sect c kw cd w asc b k) = false -> (b = false -> rows c k = []) ->
  rows (as_printed pr c) k = [].
Proof.
  intros H Hb. apply zlen_nil. rewrite printed_zlen. cbn in H. apply andb_false_iff in H.
  destruct H as [H|H]; [rewrite (Hb H); reflexivity|].
  apply negb_false_iff, Z.eqb_eq in H. exact H.
Qed.

(** ASCII: every section is found with its entries. *)
Theorem ascii_found pr on nn nr nat ntg tg tgat c (h : hdr) fin :
  marks_empty c ->
  (on = true -> nr = rows c KNor /\ nn = zlen (rows c KNor) /\ nat = rows c KNat /\ nn = zlen (rows c KNat)) ->
  (on = false -> c_nor c = [] /\ c_nat c = []) ->
  Forall (@number_tok D) (concat nr) -> Forall (@number_tok D) (concat nat) ->
  Forall (@number_tok D) (concat tg) -> Forall (@number_tok D) (concat tgat) ->
  (forall k, fst (h_sec h k) = 0) ->
  exists h', scan (concat (map (atext pr) (filter (@s_on D) (layout on nn nr nat ntg tg tgat c))) ++ fin) h
             = scan fin h' /\
    h_ver h' = h_ver h /\ forall k, holds h' k (rows (as_printed pr c) k).
Proof.
  intros ME On Off F1 F2 F3 F4 H0.
  set (l := layout on nn nr nat ntg tg tgat c).
  assert (ND : NoDup (keys (@wkey D) l)).
  { unfold l. rewrite layout_wkeys. apply NoDup_dec_keys. reflexivity. }
  assert (FA : Forall (@asec_ok D) l).
  { unfold l, layout, sect. cbv zeta.
    repeat (apply Forall_cons; [split; [reflexivity|split; [solve [left; reflexivity | right; eexists; reflexivity]|]];
       cbn [s_rows]; try apply rows_number; assumption|]).
    apply Forall_nil. }
  destruct (@scan_secs D pr (filter (@s_on D) l) fin h) as (h' & E & FD).
  { apply Forall_forall. intros s Hs. apply filter_In in Hs. rewrite Forall_forall in FA. apply FA. tauto. }
  { apply keys_filter. exact ND. }
  { intros _. apply H0. }
  exists h'. split; [exact E|]. split; [apply FD|].
  intros k.
  assert (G : forall s, In s l -> wkey s = Some k ->
     (s_on s = true -> s_n s = zlen (rows c k) /\ s_rows s = rows c k) ->
     (s_on s = false -> rows (as_printed pr c) k = []) -> holds h' k (rows (as_printed pr c) k)).
  { intros s Hs W T F. eapply holds_found; try eassumption.
    - intros Hon. destruct (T Hon) as [T1 T2]. rewrite printed_zlen, printed_rows, T1, T2. split; reflexivity.
    - intros Hoff. split; [apply F; exact Hoff|apply H0]. }
  assert (NN : forall b (P : Prop), negb b = false -> (b = true -> P) -> P) by (intros [] P; cbn; auto; discriminate).
  destruct ME as (M1 & M2 & M3).
  assert (T0 : negb (zlen (c_tri c) =? 0) = false -> c_reqt c = [] /\ c_part c = []).
  { intros B. apply negb_false_iff, Z.eqb_eq in B. apply M1, zlen_nil, B. }
  assert (Q0 : negb (zlen (c_quad c) =? 0) = false -> c_reqq c = [] /\ c_parq c = []).
  { intros B. apply negb_false_iff, Z.eqb_eq in B. apply M2, zlen_nil, B. }
  assert (A0 : negb (zlen (c_edge c) =? 0) = false -> c_rid c = [] /\ c_reqa c = [] /\ c_para c = []).
  { intros B. apply negb_false_iff, Z.eqb_eq in B. apply M3, zlen_nil, B. }
  clear NN M1 M2 M3.
  set (z := @mkSec D ""%string 0 false 0 false 0 []).
  assert (INl : forall n, (n < length l)%nat -> In (nth n l z) l) by (intros; apply nth_In; assumption).
  destruct k.
  - apply G with (s := nth 0 l z); [apply INl; unfold l; cbn [length layout]; lia|reflexivity|split; reflexivity|discriminate].
  - apply G with (s := nth 2 l z); [apply INl; unfold l; cbn [length layout]; lia|reflexivity|split; reflexivity|intros B; eapply sect_off; [exact B|clear B; intros B; discriminate B]].
  - apply G with (s := nth 3 l z); [apply INl; unfold l; cbn [length layout]; lia|reflexivity|split; reflexivity|intros B; eapply sect_off; [exact B|clear B; intros B; discriminate B]].
  - apply G with (s := nth 1 l z); [apply INl; unfold l; cbn [length layout]; lia|reflexivity|split; reflexivity|intros B; eapply sect_off; [exact B|clear B; intros B; discriminate B]].
  - apply G with (s := nth 12 l z); [apply INl; unfold l; cbn [length layout]; lia|reflexivity|split; reflexivity|intros B; eapply sect_off; [exact B|clear B; intros B; discriminate B]].
  - apply G with (s := nth 13 l z); [apply INl; unfold l; cbn [length layout]; lia|reflexivity|split; reflexivity|intros B; eapply sect_off; [exact B|clear B; intros B; cbn; destruct (T0 B) as [U1 U2]; rewrite ?U1, ?U2; reflexivity]].
  - apply G with (s := nth 14 l z); [apply INl; unfold l; cbn [length layout]; lia|reflexivity|split; reflexivity|intros B; eapply sect_off; [exact B|clear B; intros B; cbn; destruct (T0 B) as [U1 U2]; rewrite ?U1, ?U2; reflexivity]].
  - apply G with (s := nth 15 l z); [apply INl; unfold l; cbn [length layout]; lia|reflexivity|split; reflexivity|intros B; eapply sect_off; [exact B|clear B; intros B; discriminate B]].
  - apply G with (s := nth 16 l z); [apply INl; unfold l; cbn [length layout]; lia|reflexivity|split; reflexivity|intros B; eapply sect_off; [exact B|clear B; intros B; cbn; destruct (Q0 B) as [U1 U2]; rewrite ?U1, ?U2; reflexivity]].
  - apply G with (s := nth 17 l z); [apply INl; unfold l; cbn [length layout]; lia|reflexivity|split; reflexivity|intros B; eapply sect_off; [exact B|clear B; intros B; cbn; destruct (Q0 B) as [U1 U2]; rewrite ?U1, ?U2; reflexivity]].
  - apply G with (s := nth 4 l z); [apply INl; unfold l; cbn [length layout]; lia|reflexivity|split; reflexivity|discriminate].
  - apply G with (s := nth 7 l z); [apply INl; unfold l; cbn [length layout]; lia|reflexivity|split; reflexivity|intros B; eapply sect_off; [exact B|clear B; intros B; discriminate B]].
  - apply G with (s := nth 5 l z); [apply INl; unfold l; cbn [length layout]; lia|reflexivity|split; reflexivity|intros B; eapply sect_off; [exact B|clear B; intros B; discriminate B]].
  - apply G with (s := nth 6 l z); [apply INl; unfold l; cbn [length layout]; lia|reflexivity|split; reflexivity|intros B; eapply sect_off; [exact B|clear B; intros B; discriminate B]].
  - apply G with (s := nth 18 l z); [apply INl; unfold l; cbn [length layout]; lia|reflexivity|split; reflexivity|intros B; eapply sect_off; [exact B|clear B; intros B; discriminate B]].
  - apply G with (s := nth 20 l z); [apply INl; unfold l; cbn [length layout]; lia|reflexivity|split; reflexivity|intros B; eapply sect_off; [exact B|clear B; intros B; cbn; destruct (A0 B) as (U1 & U2 & U3); rewrite ?U1, ?U2, ?U3; reflexivity]].
  - apply G with (s := nth 21 l z); [apply INl; unfold l; cbn [length layout]; lia|reflexivity|split; reflexivity|intros B; eapply sect_off; [exact B|clear B; intros B; cbn; destruct (A0 B) as (U1 & U2 & U3); rewrite ?U1, ?U2, ?U3; reflexivity]].
  - apply G with (s := nth 19 l z); [apply INl; unfold l; cbn [length layout]; lia|reflexivity|split; reflexivity|intros B; eapply sect_off; [exact B|clear B; intros B; cbn; destruct (A0 B) as (U1 & U2 & U3); rewrite ?U1, ?U2, ?U3; reflexivity]].
  - apply G with (s := nth 8 l z); [apply INl; unfold l; cbn [length layout]; lia|reflexivity| |].
    + intros B. destruct (On B) as (? & ? & ? & ?). cbn [l nth layout s_n s_rows]. split; congruence.
    + intros B. destruct (Off B) as [B1 B2]. cbn. rewrite B1. reflexivity.
  - apply G with (s := nth 9 l z); [apply INl; unfold l; cbn [length layout]; lia|reflexivity| |].
    + intros B. destruct (On B) as (? & ? & ? & ?). cbn [l nth layout s_n s_rows]. split; congruence.
    + intros B. destruct (Off B) as [B1 B2]. cbn. rewrite B2. reflexivity.
Qed.

(** ** Binary *)

Lemma tot_rows w (R : list (list tok)) : (forall r, In r R -> tot r = 4 * w) ->
  tot (concat R) = 4 * w * zlen R.
Proof.
  intros H. induction R as [|r R IH]; [unfold zlen; cbn; lia|].
  cbn [concat]. rewrite tot_app, (H r) by (left; reflexivity).
  rewrite IH by (intros; apply H; right; assumption). unfold zlen. cbn [length]. rewrite Nat2Z.inj_succ. ring.
Qed.

Lemma tot_ints l : tot (map TI l : list tok) = 4 * zlen l.
Proof.
  induction l as [|x l IH]; [reflexivity|]. cbn [map]. rewrite tot_cons, IH. unfold zlen. cbn [length size]. lia.
Qed.

(** The elements have the right numbers of vertices. *)
Definition widths (c : content) : Prop :=
  widths_ok 3 (c_tri c) /\ widths_ok 4 (c_quad c) /\ widths_ok 2 (c_edge c) /\
  widths_ok 4 (c_tet c) /\ widths_ok 6 (c_pri c).

Definition width (k : key) : Z :=
  match k with
  | KVert | KPri => 7 | KTri => 4 | KQuad | KTet => 5 | KEdge => 3 | KNor => 6 | KNat => 2
  | _ => 1
  end.

Lemma tot_key c k : widths c -> tot (concat (rows c k)) = 4 * width k * zlen (rows c k).
Proof.
  intros (W1 & W2 & W3 & W4 & W5). apply tot_rows. intros r Hr.
  assert (VR : forall w l, widths_ok w l -> In r (map (vrow D) l) -> tot r = 4 * (Z.of_nat w + 1)).
  { intros w l Hw Hin. apply in_map_iff in Hin. destruct Hin as (x & <- & Hx). unfold vrow.
    rewrite tot_app, tot_ints. unfold zlen. rewrite (Hw x Hx). change (tot [@TI D (snd x)]) with 4. lia. }
  assert (OR : forall l, In r (map (one D) l) -> tot r = 4).
  { intros l Hin. apply in_map_iff in Hin. destruct Hin as (x & <- & Hx). reflexivity. }
  destruct k; cbn [rows width] in *; try (rewrite (OR _ Hr); reflexivity);
    try (rewrite (VR _ _ W1 Hr)); try (rewrite (VR _ _ W2 Hr)); try (rewrite (VR _ _ W3 Hr));
    try (rewrite (VR _ _ W4 Hr)); try (rewrite (VR _ _ W5 Hr)); try reflexivity.
  - apply in_map_iff in Hr. destruct Hr as ([[[x y] z] v] & <- & _). reflexivity.
  - apply in_map_iff in Hr. destruct Hr as ([[x y] z] & <- & _). reflexivity.
  - apply in_map_iff in Hr. destruct Hr as ([x y] & <- & _). reflexivity.
Qed.

Definition binary_on (s : sec) : bool := s_on s && negb (s_asc s).

Lemma bsect_off c kw cd w b k :
  binary_on (sect c kw cd w false b k) = false -> (b = false -> rows c k = []) -> rows c k = [].
Proof.
  intros H Hb. apply zlen_nil. unfold binary_on in H. cbn in H. rewrite andb_true_r in H.
  apply andb_false_iff in H.
  destruct H as [H|H]; [rewrite (Hb H); reflexivity|].
  apply negb_false_iff, Z.eqb_eq in H. exact H.
Qed.

(** Binary: every section but the parallel ones is found with its entries. *)
Theorem binary_found on nn nr nat ntg tg tgat c (h : hdr) pre n :
  marks_empty c -> widths c ->
  (on = true -> nr = rows c KNor /\ nn = zlen (rows c KNor) /\ nat = rows c KNat /\ nn = zlen (rows c KNat)) ->
  (on = false -> c_nor c = [] /\ c_nat c = []) ->
  ntg = zlen tg -> ntg = zlen tgat ->
  (forall r, In r tg -> exists v, r = v3 v) -> (forall r, In r tgat -> exists i j, r = [TI i; TI j]) ->
  (forall k, fst (h_sec h k) = 0) ->
  let l := filter binary_on (layout on nn nr nat ntg tg tgat c) in
  exists h', bscan (S (length l) + n) (pre ++ btext (tot pre) l) (btext (tot pre) l) 3 h = Ok h' /\
    h_ver h' = h_ver h /\ forall k, holds h' k (rows (no_par c) k).
Proof.
  intros ME WD On Off T1 T2 T3 T4 H0.
  set (l := layout on nn nr nat ntg tg tgat c).
  assert (ND : NoDup (keys (@bkey D) l)).
  { unfold l. rewrite layout_bkeys. apply NoDup_dec_keys. reflexivity. }
  assert (FA : forall s, In s l -> binary_on s = true -> bsec_ok s).
  { assert (K : forall kw cd on' asc k, cd <> 54 ->
      bsec_ok (mkSec kw cd on' (width k) asc (zlen (rows c k)) (rows c k))).
    { intros. split; [assumption|]. apply tot_key. exact WD. }
    assert (BT : forall s, binary_on s = true -> s_on s = true).
    { intros s Hs. unfold binary_on in Hs. apply andb_true_iff in Hs. tauto. }
    intros s Hs Hon. unfold l, layout, sect in Hs. cbv zeta in Hs. apply BT in Hon.
    repeat (destruct Hs as [<- |Hs]; [first
      [ apply (K _ _ _ _ KVert); discriminate | apply (K _ _ _ _ KCor); discriminate
      | apply (K _ _ _ _ KReqV); discriminate | apply (K _ _ _ _ KParV); discriminate
      | apply (K _ _ _ _ KTet); discriminate | apply (K _ _ _ _ KReqE); discriminate
      | apply (K _ _ _ _ KParE); discriminate | apply (K _ _ _ _ KPri); discriminate
      | apply (K _ _ _ _ KTri); discriminate | apply (K _ _ _ _ KReqT); discriminate
      | apply (K _ _ _ _ KParT); discriminate | apply (K _ _ _ _ KQuad); discriminate
      | apply (K _ _ _ _ KReqQ); discriminate | apply (K _ _ _ _ KParQ); discriminate
      | apply (K _ _ _ _ KEdge); discriminate | apply (K _ _ _ _ KRid); discriminate
      | apply (K _ _ _ _ KReqA); discriminate | apply (K _ _ _ _ KParA); discriminate
      | idtac ] |]); try destruct Hs.
    - destruct (On Hon) as (-> & -> & _ & _). apply (K _ _ _ _ KNor). discriminate.
    - destruct (On Hon) as (_ & _ & -> & ->). apply (K _ _ _ _ KNat). discriminate.
    - split; [discriminate|]. cbn [s_rows s_width s_n]. rewrite T1. apply tot_rows. intros r Hr.
      destruct (T3 r Hr) as [[[x y] z] ->]. reflexivity.
    - split; [discriminate|]. cbn [s_rows s_width s_n]. rewrite T2. apply tot_rows. intros r Hr.
      destruct (T4 r Hr) as (x & y & ->). reflexivity. }
  cbv zeta.
  destruct (@bscan_secs D (fun d => d) (filter binary_on l) n pre (tot pre) h) as (h' & E & FD).
  { apply Forall_forall. intros s Hs. apply filter_In in Hs. apply FA; tauto. }
  { apply keys_filter. exact ND. }
  { reflexivity. }
  { intros k _. apply H0. }
  exists h'. split; [exact E|]. split; [apply FD|].
  intros k.
  assert (G : forall s, In s l -> bkey s = Some k -> rows (no_par c) k = rows c k ->
     (binary_on s = true -> s_n s = zlen (rows c k) /\ s_rows s = rows c k) ->
     (binary_on s = false -> rows c k = []) -> holds h' k (rows (no_par c) k)).
  { intros s Hs W EK T F. rewrite EK. eapply holds_found; try eassumption.
    - intros Hon. destruct (T Hon) as [U1 U2]. rewrite U1, U2. split; reflexivity.
    - intros Hoff. split; [apply F; exact Hoff|apply H0]. }
  assert (AB : forall b, existsb (fun j => if key_eq_dec j k then true else false)
     (keys (@bkey D) l) = b -> b = false -> holds h' k []).
  { intros b <- Hb. eapply holds_absent; [exact FD| |apply H0]. intros Hin.
    assert (In k (keys (@bkey D) l)).
    { unfold keys in *. apply in_flat_map in Hin. destruct Hin as (s & Hs & Hk). apply filter_In in Hs.
      apply in_flat_map. exists s. tauto. }
    assert (T : existsb (fun j => if key_eq_dec j k then true else false) (keys (@bkey D) l) = true).
    { apply existsb_exists. exists k. split; [assumption|]. destruct (key_eq_dec k k); [reflexivity|congruence]. }
    congruence. }
  destruct ME as (M1 & M2 & M3).
  assert (T0 : negb (zlen (c_tri c) =? 0) = false -> c_reqt c = [] /\ c_part c = []).
  { intros B. apply negb_false_iff, Z.eqb_eq in B. apply M1, zlen_nil, B. }
  assert (Q0 : negb (zlen (c_quad c) =? 0) = false -> c_reqq c = [] /\ c_parq c = []).
  { intros B. apply negb_false_iff, Z.eqb_eq in B. apply M2, zlen_nil, B. }
  assert (A0 : negb (zlen (c_edge c) =? 0) = false -> c_rid c = [] /\ c_reqa c = [] /\ c_para c = []).
  { intros B. apply negb_false_iff, Z.eqb_eq in B. apply M3, zlen_nil, B. }
  clear M1 M2 M3.
  set (z := @mkSec D ""%string 0 false 0 false 0 []).
  assert (INl : forall n, (n < length l)%nat -> In (nth n l z) l) by (intros; apply nth_In; assumption).
  destruct k.
  - apply G with (s := nth 0 l z); [apply INl; unfold l; cbn [length layout]; lia|reflexivity|reflexivity|split; reflexivity|discriminate].
  - apply G with (s := nth 2 l z); [apply INl; unfold l; cbn [length layout]; lia|reflexivity|reflexivity|split; reflexivity|intros B; eapply bsect_off; [exact B|clear B; intros B; discriminate B]].
  - exact (AB _ eq_refl eq_refl).
  - apply G with (s := nth 1 l z); [apply INl; unfold l; cbn [length layout]; lia|reflexivity|reflexivity|split; reflexivity|intros B; eapply bsect_off; [exact B|clear B; intros B; discriminate B]].
  - apply G with (s := nth 12 l z); [apply INl; unfold l; cbn [length layout]; lia|reflexivity|reflexivity|split; reflexivity|intros B; eapply bsect_off; [exact B|clear B; intros B; discriminate B]].
  - apply G with (s := nth 13 l z); [apply INl; unfold l; cbn [length layout]; lia|reflexivity|reflexivity|split; reflexivity|intros B; eapply bsect_off; [exact B|clear B; intros B; cbn; destruct (T0 B) as [U1 U2]; rewrite ?U1, ?U2; reflexivity]].
  - exact (AB _ eq_refl eq_refl).
  - apply G with (s := nth 15 l z); [apply INl; unfold l; cbn [length layout]; lia|reflexivity|reflexivity|split; reflexivity|intros B; eapply bsect_off; [exact B|clear B; intros B; discriminate B]].
  - apply G with (s := nth 16 l z); [apply INl; unfold l; cbn [length layout]; lia|reflexivity|reflexivity|split; reflexivity|intros B; eapply bsect_off; [exact B|clear B; intros B; cbn; destruct (Q0 B) as [U1 U2]; rewrite ?U1, ?U2; reflexivity]].
  - exact (AB _ eq_refl eq_refl).
  - apply G with (s := nth 4 l z); [apply INl; unfold l; cbn [length layout]; lia|reflexivity|reflexivity|split; reflexivity|discriminate].
  - apply G with (s := nth 7 l z); [apply INl; unfold l; cbn [length layout]; lia|reflexivity|reflexivity|split; reflexivity|intros B; eapply bsect_off; [exact B|clear B; intros B; discriminate B]].
  - apply G with (s := nth 5 l z); [apply INl; unfold l; cbn [length layout]; lia|reflexivity|reflexivity|split; reflexivity|intros B; eapply bsect_off; [exact B|clear B; intros B; discriminate B]].
  - exact (AB _ eq_refl eq_refl).
  - apply G with (s := nth 18 l z); [apply INl; unfold l; cbn [length layout]; lia|reflexivity|reflexivity|split; reflexivity|intros B; eapply bsect_off; [exact B|clear B; intros B; discriminate B]].
  - apply G with (s := nth 20 l z); [apply INl; unfold l; cbn [length layout]; lia|reflexivity|reflexivity|split; reflexivity|intros B; eapply bsect_off; [exact B|clear B; intros B; cbn; destruct (A0 B) as (U1 & U2 & U3); rewrite ?U1, ?U2, ?U3; reflexivity]].
  - exact (AB _ eq_refl eq_refl).
  - apply G with (s := nth 19 l z); [apply INl; unfold l; cbn [length layout]; lia|reflexivity|reflexivity|split; reflexivity|intros B; eapply bsect_off; [exact B|clear B; intros B; cbn; destruct (A0 B) as (U1 & U2 & U3); rewrite ?U1, ?U2, ?U3; reflexivity]].
  - apply G with (s := nth 8 l z); [apply INl; unfold l; cbn [length layout]; lia|reflexivity|reflexivity| |].
    + intros B. unfold binary_on in B. cbn in B. rewrite andb_true_r in B. destruct (On B) as (? & ? & ? & ?). cbn [l nth layout s_n s_rows]. split; congruence.
    + intros B. unfold binary_on in B. cbn in B. rewrite andb_true_r in B. destruct (Off B) as [B1 B2]. cbn. rewrite B1. reflexivity.
  - apply G with (s := nth 9 l z); [apply INl; unfold l; cbn [length layout]; lia|reflexivity|reflexivity| |].
    + intros B. unfold binary_on in B. cbn in B. rewrite andb_true_r in B. destruct (On B) as (? & ? & ? & ?). cbn [l nth layout s_n s_rows]. split; congruence.
    + intros B. unfold binary_on in B. cbn in B. rewrite andb_true_r in B. destruct (Off B) as [B1 B2]. cbn. rewrite B2. reflexivity.
Qed.

End Trip.
