(** Proofs on the check of the boundary triangles. *)
From Coq Require Import ZArith List Bool Lia Permutation.
From Verif Require Import CBase Chain MeshModel HashModel HashSpec HashCorrect AdjaModel AdjaProofs PropsAdja BdryModel.
Import ListNotations.
Open Scope Z_scope.

(** ** Loops as folds over lists *)

Fixpoint foldM {X S} (f : X -> S -> outcome S) (l : list X) (s : S) : outcome S :=
  match l with [] => Ret s | x :: l' => s' <- f x s ;; foldM f l' s' end.

Lemma foldM_app X S (f : X -> S -> outcome S) l1 : forall l2 s, foldM f (l1 ++ l2) s = (s' <- foldM f l1 s ;; foldM f l2 s').
Proof.
  induction l1 as [|x l1 IH]; intros l2 s; cbn [foldM app bind]; [reflexivity|].
  destruct (f x s); cbn [bind]; [apply IH|reflexivity].
Qed.

Lemma foldM_ext X S (f g : X -> S -> outcome S) l : forall s, (forall x s, In x l -> f x s = g x s) -> foldM f l s = foldM g l s.
Proof.
  induction l as [|x l IH]; intros s H; cbn [foldM]; [reflexivity|]. rewrite H by (left; reflexivity).
  destruct (g x s); cbn [bind]; [|reflexivity]. apply IH. intros y s' Hy. apply H. right. exact Hy.
Qed.

Lemma for_up_fold S (f : Z -> S -> outcome S) n : forall lo s,
  for_up lo n f s = foldM f (map (fun i => lo + Z.of_nat i) (seq 0 n)) s.
Proof.
  induction n as [|n IH]; intros lo s; cbn [for_up seq map foldM]; [reflexivity|].
  replace (lo + Z.of_nat 0) with lo by lia. destruct (f lo s); cbn [bind]; [|reflexivity].
  rewrite IH, <- seq_shift, map_map. f_equal. apply map_ext. intros i. lia.
Qed.
Lemma for_range_fold S (f : Z -> S -> outcome S) lo hi s : for_range lo hi f s = foldM f (zrange lo hi) s.
Proof. apply for_up_fold. Qed.

Lemma foldM_prod X Y S (f : X -> Y -> S -> outcome S) l2 l1 : forall s,
  foldM (fun x s => foldM (f x) l2 s) l1 s = foldM (fun p s => f (fst p) (snd p) s) (list_prod l1 l2) s.
Proof.
  induction l1 as [|x l1 IH]; intros s; cbn [foldM list_prod]; [reflexivity|].
  rewrite foldM_app.
  assert (E : forall s, foldM (fun p s => f (fst p) (snd p) s) (map (fun y => (x, y)) l2) s = foldM (f x) l2 s).
  { clear. induction l2 as [|y l2 IH]; intros s; cbn [map foldM]; [reflexivity|]. cbn [fst snd].
    destruct (f x y s); cbn [bind]; [apply IH|reflexivity]. }
  rewrite E. destruct (foldM (f x) l2 s); cbn [bind]; [apply IH|reflexivity].
Qed.

Lemma foldM_inv X S (P : list X -> S -> Prop) (f : X -> S -> outcome S) (l : list X) (s : S) :
  P [] s ->
  (forall pre x post s, l = pre ++ x :: post -> P pre s -> exists s', f x s = Ret s' /\ P (pre ++ [x]) s') ->
  exists s', foldM f l s = Ret s' /\ P l s'.
Proof.
  intros H0 Hs.
  assert (G : forall post pre s, l = pre ++ post -> P pre s -> exists s', foldM f post s = Ret s' /\ P l s').
  { induction post as [|x post IH]; intros pre s1 E HP; cbn [foldM].
    - exists s1. split; [reflexivity|]. rewrite app_nil_r in E. subst. exact HP.
    - destruct (Hs pre x post s1 E HP) as (s2 & E2 & P2). rewrite E2. cbn [bind].
      apply (IH (pre ++ [x])); [rewrite <- app_assoc; exact E|exact P2]. }
  exact (G l [] s eq_refl H0).
Qed.

Lemma zrange_snoc lo hi : lo <= hi + 1 -> zrange lo (hi + 1) = zrange lo hi ++ [hi + 1].
Proof.
  intros H. unfold zrange. replace (Z.to_nat (hi + 1 - lo + 1)) with (S (Z.to_nat (hi - lo + 1))) by lia.
  rewrite seq_S, map_app. cbn [map]. f_equal. f_equal. lia.
Qed.
Lemma zrange_pred k : 1 <= k -> zrange 1 k = zrange 1 (k - 1) ++ [k].
Proof. intros H. replace k with (k - 1 + 1) at 1 by lia. rewrite zrange_snoc by lia. f_equal. f_equal. lia. Qed.

Lemma filter_len A (p : A -> bool) l : (length (filter p l) + length (filter (fun x => negb (p x)) l) = length l)%nat.
Proof. induction l as [|x l IH]; [reflexivity|]. cbn [filter]. destruct (p x); cbn [negb length]; lia. Qed.
Lemma filter_filter A (p q : A -> bool) l : filter p (filter q l) = filter (fun x => q x && p x) l.
Proof. induction l as [|x l IH]; [reflexivity|]. cbn [filter]. destruct (q x); cbn [filter andb]; [destruct (p x)|]; rewrite IH; reflexivity. Qed.

(** ** Faces *)

Section Mesh.
Context (ne nemax : Z) (tet : arr tetra) (adj : arr Z).

Let T k := aget tet k.
(** The three vertices of a face, whatever their order. *)
Definition kof (f : Z * Z) : Z * Z * Z := fkey (fa (T (fst f)) (snd f)) (fb (T (fst f)) (snd f)) (fc (T (fst f)) (snd f)).
Definition all_faces : list (Z * Z) := list_prod (zrange 1 ne) [0; 1; 2; 3].
Definition nb (f : Z * Z) : Z := entry adj (fst f) (snd f).
(** On the boundary: without neighbour, or with a neighbour of smaller reference. *)
Definition is_b (f : Z * Z) : bool := (nb f =? 0) || (tref (T (Z.quot (nb f) 4)) <? tref (T (fst f))).
Definition bfaces : list (Z * Z) := filter is_b all_faces.

Record good : Prop := {
  g_pk : packed ne nemax tet;
  g_len : 4 * ne + 1 <= alen adj;
  g_adj : adj_fits ne tet adj;
  g_conf : forall f g h, In f all_faces -> In g all_faces -> In h all_faces ->
     kof f = kof g -> kof f = kof h -> f = g \/ f = h \/ g = h }.
Hypothesis OK : good.

Lemma in_faces k i : In (k, i) all_faces <-> 1 <= k <= ne /\ 0 <= i < 4.
Proof.
  unfold all_faces. rewrite in_prod_iff, in_zrange. cbn [In]. split; intros [A B]; (split; [exact A|]).
  - destruct B as [<-|[<-|[<-|[<-|[]]]]]; lia.
  - lia.
Qed.

Lemma NoDup_app_intro A (l1 l2 : list A) : NoDup l1 -> NoDup l2 -> (forall x, In x l1 -> ~ In x l2) -> NoDup (l1 ++ l2).
Proof.
  induction l1 as [|x l1 IH]; intros N1 N2 D; cbn [app]; [exact N2|].
  inversion N1 as [|? ? Nx Nl]; subst. constructor.
  - rewrite in_app_iff. intros [H|H]; [contradiction|]. exact (D x (or_introl eq_refl) H).
  - apply IH; auto. intros y Hy. apply D. right. exact Hy.
Qed.

Lemma NoDup_zrange lo hi : NoDup (zrange lo hi).
Proof. unfold zrange. apply FinFun.Injective_map_NoDup; [intros a b; lia|apply seq_NoDup]. Qed.

Lemma nodup_faces : NoDup all_faces.
Proof.
  unfold all_faces. pose proof (NoDup_zrange 1 ne) as N1. revert N1. generalize (zrange 1 ne).
  induction l as [|x l IH]; intros N1; [constructor|]. inversion N1 as [|? ? Nx Nl]; subst.
  change (list_prod (x :: l) [0; 1; 2; 3]) with (map (fun y => (x, y)) [0; 1; 2; 3] ++ list_prod l [0; 1; 2; 3]).
  apply NoDup_app_intro.
  - apply FinFun.Injective_map_NoDup; [intros a b E; congruence|]. repeat constructor; cbn; lia.
  - apply IH. exact Nl.
  - intros [a b] H1 H2. apply in_map_iff in H1. destruct H1 as (y & E & _). injection E as -> ->.
    apply in_prod_iff in H2. destruct H2. contradiction.
Qed.

Lemma coin_k k i l j : 0 <= i < 4 -> 0 <= j < 4 -> (coincide (T k) i (T l) j <-> kof (k, i) = kof (l, j)).
Proof.
  intros Hi Hj. destruct (fel_enc k i Hi) as [E1 E2], (fel_enc l j Hj) as [E3 E4].
  pose proof (coincide_fid tet (4 * (k - 1) + 1 + i) (4 * (l - 1) + 1 + j)) as C.
  rewrite E1, E2, E3, E4 in C. specialize (C Hi Hj). unfold T. rewrite C. unfold fid. rewrite E1, E2, E3, E4. reflexivity.
Qed.

(** Neighbour of a face *)
Lemma nb_cases f : In f all_faces -> nb f = 0 \/
  exists g, In g all_faces /\ g <> f /\ nb f = 4 * fst g + snd g /\ nb g = 4 * fst f + snd f /\ kof f = kof g.
Proof.
  destruct f as [k i]. intros H. apply in_faces in H. destruct H as [Hk Hi].
  destruct (fit_sym _ _ _ (g_adj OK) k i Hk Hi) as [Z0|(l & j & Hl & Hj & N & E1 & E2 & C)]; [left; exact Z0|].
  right. exists (l, j). rewrite in_faces. cbn [fst snd]. split; [auto|]. split; [auto|]. split; [exact E1|]. split; [exact E2|].
  apply coin_k in C; auto.
Qed.

Lemma enc4 k i : 1 <= k -> 0 <= i < 4 -> Z.quot (4 * k + i) 4 = k /\ Z.rem (4 * k + i) 4 = i /\ 4 * k + i <> 0.
Proof.
  intros Hk Hi. rewrite Z.quot_div_nonneg, Z.rem_mod_nonneg by lia.
  split; [symmetry; apply Z.div_unique with i; lia|]. split; [symmetry; apply Z.mod_unique with k; lia|lia].
Qed.

Lemma same_b f g : In f all_faces -> In g all_faces -> is_b f = true -> is_b g = true -> kof f = kof g -> f = g.
Proof.
  intros Hf Hg Bf Bg E.
  assert (D : f = g \/ f <> g). { destruct f as [a b], g as [c d]. destruct (Z.eq_dec a c), (Z.eq_dec b d); [left; congruence|right; congruence..]. }
  destruct D as [D|D]; [exact D|]. exfalso.
  destruct (nb_cases f Hf) as [Zf|(f' & Hf' & Nf & E1 & E2 & Kf)].
  - destruct (nb_cases g Hg) as [Zg|(g' & Hg' & Ng & E3 & E4 & Kg)].
    + destruct f as [a b], g as [c d]. pose proof Hf as Hf1. pose proof Hg as Hg1. apply in_faces in Hf1, Hg1.
      apply (fit_max _ _ _ (g_adj OK) a b c d); try lia; auto. apply coin_k; try lia. exact E.
    + destruct (g_conf OK f g g' Hf Hg Hg' E (eq_trans E Kg)) as [X|[X|X]]; [contradiction| |congruence].
      subst g'. rewrite Zf in E4. destruct g as [c d]. apply in_faces in Hg. cbn [fst snd] in E4. lia.
  - destruct (g_conf OK f g f' Hf Hg Hf' E Kf) as [X|[X|X]]; [contradiction|congruence|]. subst f'.
    unfold is_b in Bf, Bg. rewrite E1 in Bf. rewrite E2 in Bg.
    destruct f as [a b], g as [c d]. apply in_faces in Hf, Hg. cbn [fst snd] in *.
    destruct (enc4 a b) as (Q1 & _ & Q2); [lia|lia|]. destruct (enc4 c d) as (Q3 & _ & Q4); [lia|lia|].
    rewrite Q1 in Bg. rewrite Q3 in Bf. apply Z.eqb_neq in Q2, Q4. rewrite Q4 in Bf. rewrite Q2 in Bg. cbn [orb] in Bf, Bg.
    apply Z.ltb_lt in Bf, Bg. lia.
Qed.

Lemma each_fold S (f : tetra -> Z -> Z -> S -> outcome S) s :
  each_face ne tet f s = foldM (fun p s => f (T (fst p)) (fst p) (snd p) s) all_faces s.
Proof.
  unfold each_face, all_faces. rewrite for_range_fold, <- (foldM_prod Z Z S (fun k i s => f (T k) k i s)). apply foldM_ext.
  intros k s' Hk. apply in_zrange in Hk. destruct (g_pk OK) as (A & B & C). rewrite rd_ok by lia. cbn [bind].
  assert (E : eok (aget tet k) = true). { unfold eok. apply Z.ltb_lt. exact (C k Hk 0 ltac:(lia)). }
  rewrite E, for_range_fold. reflexivity.
Qed.

Lemma in_split_faces pre f post : all_faces = pre ++ f :: post -> In f all_faces.
Proof. intros ->. apply in_or_app. right. left. reflexivity. Qed.

Lemma rd_nb k i : In (k, i) all_faces -> rd adj (4 * (k - 1) + 1 + i) = Ret (nb (k, i)).
Proof. intros H. apply in_faces in H. pose proof (g_len OK). apply rd_ok. lia. Qed.

Lemma rd_quot f : In f all_faces -> rd tet (Z.quot (nb f) 4) = Ret (T (Z.quot (nb f) 4)).
Proof.
  intros H. destruct (g_pk OK) as (A & B & C). destruct (nb_cases f H) as [->|(g & Hg & _ & E & _)].
  - apply rd_ok. cbn. lia.
  - destruct g as [l j]. apply in_faces in Hg. rewrite E. cbn [fst snd]. destruct (enc4 l j) as (Q & _); [lia|lia|]. rewrite Q. apply rd_ok. lia.
Qed.

Lemma filter_snoc A (p : A -> bool) l x : filter p (l ++ [x]) = filter p l ++ (if p x then [x] else []).
Proof. rewrite filter_app. cbn [filter]. destruct (p x); reflexivity. Qed.

Lemma count_ok : count_bdry ne tet adj = Ret (Z.of_nat (length bfaces)).
Proof.
  unfold count_bdry. rewrite each_fold. unfold bfaces.
  destruct (foldM_inv (Z * Z) Z (fun pre n => n = Z.of_nat (length (filter is_b pre)))
    (fun p n => x <- rd adj (4 * (fst p - 1) + 1 + snd p) ;;
       if x =? 0 then Ret (n + 1) else t1 <- rd tet (Z.quot x 4) ;; Ret (if tref t1 <? tref (T (fst p)) then n + 1 else n)) all_faces 0) as (n & E & H).
  - reflexivity.
  - intros pre [k i] post n E ->. pose proof (in_split_faces _ _ _ E) as Hf. cbn [fst snd]. rewrite (rd_nb k i Hf). cbn [bind].
    rewrite filter_snoc, app_length, Nat2Z.inj_add. rewrite (rd_quot _ Hf). cbn [bind].
    assert (B : is_b (k, i) = (nb (k, i) =? 0) || (tref (T (Z.quot (nb (k, i)) 4)) <? tref (T k))) by reflexivity. rewrite B.
    destruct (nb (k, i) =? 0); cbn [orb]; [eexists; split; reflexivity|].
    eexists; split; [reflexivity|]. destruct (_ <? _); cbn [length]; lia.
  - rewrite E, H. reflexivity.
Qed.

(** ** Tables as lists of insertions *)

Definition keyb (p q : Z * Z * Z) : bool :=
  let '(a, b, c) := p in let '(x, y, z) := q in (a =? x) && (b =? y) && (c =? z).
Lemma keyb_ok p q : keyb p q = true <-> p = q.
Proof.
  destruct p as [[a b] c], q as [[x y] z]. unfold keyb. rewrite !andb_true_iff, !Z.eqb_eq. split; [intros [[-> ->] ->]; reflexivity|intros E; injection E; auto].
Qed.

(** First value inserted with key [q]. *)
Definition lk (L : list (Z * Z * Z * Z)) (q : Z * Z * Z) : option Z :=
  option_map snd (find (fun p => keyb (fst p) q) L).

Lemma lk_some L q v : lk L q = Some v -> In (q, v) L.
Proof.
  unfold lk. destruct (find _ L) as [p|] eqn:F; [|discriminate]. intros E. injection E as <-. apply find_some in F.
  destruct F as [F1 F2]. apply keyb_ok in F2. rewrite <- F2. destruct p; exact F1.
Qed.
Lemma lk_none L q : lk L q = None <-> forall v, ~ In (q, v) L.
Proof.
  unfold lk. destruct (find _ L) as [p|] eqn:F; cbn [option_map].
  - split; [discriminate|]. intros H. exfalso. apply find_some in F. destruct F as [F1 F2]. apply keyb_ok in F2. subst q. apply (H (snd p)). destruct p; exact F1.
  - split; [|reflexivity]. intros _ v H. pose proof (find_none _ _ F _ H) as X. cbn in X.
    assert (Y : keyb q q = true) by (apply keyb_ok; reflexivity). congruence.
Qed.
Lemma lk_app L L' q : lk (L ++ L') q = match lk L q with Some v => Some v | None => lk L' q end.
Proof.
  unfold lk. induction L as [|p L IH]; cbn [find app option_map]; [reflexivity|]. destruct (keyb (fst p) q); [reflexivity|]. exact IH.
Qed.
Lemma lk_one p v q : lk [(p, v)] q = if keyb p q then Some v else None.
Proof. unfold lk. cbn [find fst]. destruct (keyb p q); reflexivity. Qed.

Definition hrep (h : htab) (L : list (Z * Z * Z * Z)) : Prop := frep h (fun x y z => lk L (fkey x y z)).

Lemma hrep_ext h L L' : hrep h L -> (forall q, lk L' q = lk L q) -> hrep h L'.
Proof. intros [A B] H. split; [exact A|]. intros x y z k. rewrite H. apply B. Qed.

Lemma frep_ext h M M' : frep h M -> (forall x y z, M' x y z = M x y z) -> frep h M'.
Proof. intros [A B] H. split; [exact A|]. intros x y z k. rewrite H. apply B. Qed.

Lemma new_hrep n : 0 <= n -> exists h, hashNew (51 * n / 100) (151 * n / 100) = Ret h /\ hrep h [].
Proof.
  intros Hn. destruct (new_frep (51 * n / 100) (151 * n / 100)) as (h & E & R).
  { split; [apply Z.div_pos; lia|]. apply Z.div_le_mono; lia. }
  exists h. split; [exact E|]. apply frep_ext with (1 := R). reflexivity.
Qed.

Lemma ins_ok g h L a b c v : hrep h L -> 0 < a -> 0 < b -> 0 < c -> 1 <= g -> (forall q w, In (q, w) L -> w <> 0) ->
  exists h', ins_face g (Some h) a b c v = Ret (match lk L (fkey a b c) with Some w => w | None => -1 end, Some h') /\
    hrep h' (L ++ [(fkey a b c, v)]).
Proof.
  intros R Ha Hb Hc Hg HL. unfold ins_face.
  destruct (fstep_ok h _ (FIns a b c v g) R (conj Ha (conj Hb Hc))) as (r & h' & E & C).
  cbn [fstep] in E. rewrite E. cbn [bind fspec frefused] in C |- *.
  destruct (lk L (fkey a b c)) as [w|] eqn:F.
  - destruct C as [[-> R']|[[_ X] _]]; [|discriminate]. cbn [fst snd] in *.
    pose proof (HL _ _ (lk_some _ _ _ F)) as Nw. apply Z.eqb_neq in Nw. rewrite Nw. cbn [andb].
    exists h'. split; [reflexivity|]. apply hrep_ext with (1 := R'). intros q. rewrite lk_app, lk_one.
    destruct (lk L q) eqn:G; [reflexivity|]. destruct (keyb (fkey a b c) q) eqn:K; [|reflexivity]. apply keyb_ok in K. congruence.
  - destruct C as [[-> R']|[[X _] _]]; [|lia]. cbn [fst snd Z.eqb] in *.
    exists h'. split; [reflexivity|]. apply frep_ext with (1 := R'). intros x y z. unfold fput. rewrite lk_app, lk_one.
    destruct (same_face a b c x y z) eqn:Sf.
    + apply same_face_key in Sf. rewrite Sf, F. rewrite (proj2 (keyb_ok _ _) eq_refl). reflexivity.
    + destruct (keyb (fkey a b c) (fkey x y z)) eqn:K.
      * apply keyb_ok in K. symmetry in K. apply same_face_key in K. congruence.
      * destruct (lk L (fkey x y z)); reflexivity.
Qed.

Lemma get_ok h L a b c : hrep h L -> 0 < a -> 0 < b -> 0 < c ->
  get_face (Some h) a b c = Ret (match lk L (fkey a b c) with Some w => w | None => 0 end).
Proof.
  intros R Ha Hb Hc. unfold get_face.
  destruct (fstep_ok h _ (FGet a b c) R (conj Ha (conj Hb Hc))) as (r & h' & E & C).
  cbn [fstep] in E. destruct (hashGetFace h a b c) as [w|] eqn:G; [|discriminate]. cbn [bind] in E. injection E as -> ->.
  destruct C as [[-> _]|[[] _]]. cbn [fspec]. destruct (lk L (fkey a b c)); reflexivity.
Qed.

(** ** Table of the faces *)

Context (opn : bool).
Definition hs (f : Z * Z) : bool := opn || is_b f.
Definition ftab (l : list (Z * Z)) : list (Z * Z * Z * Z) := map (fun f => (kof f, 4 * fst f + snd f)) (filter hs l).

Lemma fpos k i : In (k, i) all_faces -> 0 < fa (T k) i /\ 0 < fb (T k) i /\ 0 < fc (T k) i.
Proof.
  intros H. apply in_faces in H. destruct H as [Hk Hi]. destruct (g_pk OK) as (_ & _ & C). unfold fa, fb, fc.
  assert (i = 0 \/ i = 1 \/ i = 2 \/ i = 3) as D by lia.
  destruct D as [->|[->|[->| ->]]]; (split; [|split]); apply (C k Hk); vm_compute; (split; [discriminate|reflexivity]).
Qed.

Lemma ftab_pos l : (forall f, In f l -> In f all_faces) -> forall q w, In (q, w) (ftab l) -> w <> 0.
Proof.
  intros Hl q w H. unfold ftab in H. apply in_map_iff in H. destruct H as ([k i] & E & H). assert (Ew : w = 4 * k + i) by (cbn [fst snd] in E; congruence).
  apply filter_In in H. destruct H as [H _]. apply Hl, in_faces in H. lia.
Qed.

Lemma hash_ok (g : grants) ntmesh : 0 <= ntmesh -> (forall k i, 1 <= g k i) ->
  exists h, hash_bdry opn g ntmesh ne tet adj = Ret (true, Some h) /\ hrep h (ftab all_faces).
Proof.
  intros Hn Hg. unfold hash_bdry. destruct (new_hrep ntmesh Hn) as (h0 & E0 & R0). rewrite E0. cbn [bind]. rewrite each_fold.
  match goal with |- context [foldM ?f all_faces ?s] =>
    destruct (foldM_inv (Z * Z) (bool * otab) (fun pre st => exists h, st = (true, Some h) /\ hrep h (ftab pre)) f all_faces s) as (st & E & h & -> & R) end.
  - exists h0. auto.
  - intros pre [k i] post st E (h & -> & R). pose proof (in_split_faces _ _ _ E) as Hf. cbn [fst snd].
    assert (Hpre : forall f, In f pre -> In f all_faces) by (intros f X; rewrite E; apply in_or_app; auto).
    destruct (fpos k i Hf) as (P1 & P2 & P3).
    assert (Ins : forall h L, hrep h L -> (forall q w, In (q, w) L -> w <> 0) -> exists h',
        ('(v, o) <- ins_face (g k i) (Some h) (fa (T k) i) (fb (T k) i) (fc (T k) i) (4 * k + i) ;; Ret (negb (v =? 0), o)) = Ret (true, Some h') /\
        hrep h' (L ++ [(kof (k, i), 4 * k + i)])).
    { intros h1 L R1 HL. destruct (ins_ok (g k i) h1 L _ _ _ (4 * k + i) R1 P1 P2 P3 (Hg k i) HL) as (h' & E1 & R').
      rewrite E1. cbn [bind]. exists h'. split; [|exact R'].
      destruct (lk L _) as [w|] eqn:F; [|reflexivity]. apply lk_some, HL in F. apply Z.eqb_neq in F. rewrite F. reflexivity. }
    unfold ftab at 1. rewrite filter_snoc, map_app. change (map _ (filter hs pre)) with (ftab pre).
    unfold hs. destruct opn eqn:Eo; cbn [orb].
    + destruct (Ins h _ R (ftab_pos pre Hpre)) as (h' & E1 & R'). rewrite E1. eexists. split; [reflexivity|]. exists h'. auto.
    + rewrite (rd_nb k i Hf). cbn [bind]. unfold is_b. cbn [fst].
      destruct (Z.eqb_spec (nb (k, i)) 0) as [Z0|N0]; cbn [orb].
      * destruct (Ins h _ R (ftab_pos pre Hpre)) as (h' & E1 & R'). rewrite E1. cbn [bind]. rewrite (rd_quot _ Hf). cbn [bind].
        destruct (tref (T (Z.quot (nb (k, i)) 4)) <? tref (T k)).
        -- destruct (Ins h' _ R') as (h'' & E2 & R'').
           { intros q w H. apply in_app_or in H. destruct H as [H|[H|[]]]; [exact (ftab_pos pre Hpre _ _ H)|]. assert (Ew : w = 4 * k + i) by congruence. apply in_faces in Hf. lia. }
           cbn [fst snd]. rewrite E2. eexists. split; [reflexivity|]. exists h''. split; [reflexivity|].
           apply hrep_ext with (1 := R''). intros q. cbn [map fst snd]. rewrite !lk_app. destruct (lk (ftab pre) q); [reflexivity|].
           rewrite lk_one. destruct (keyb (kof (k, i)) q); reflexivity.
        -- eexists. split; [reflexivity|]. exists h'. auto.
      * rewrite (rd_quot _ Hf). cbn [bind]. destruct (tref (T (Z.quot (nb (k, i)) 4)) <? tref (T k)).
        -- destruct (Ins h _ R (ftab_pos pre Hpre)) as (h' & E1 & R'). cbn [fst snd]. rewrite E1. eexists. split; [reflexivity|]. exists h'. auto.
        -- eexists. split; [reflexivity|]. exists h. split; [reflexivity|]. cbn [map]. rewrite app_nil_r. exact R.
  - exists h. split; [|exact R]. exact E.
Qed.

(** ** Flags *)

Context (nt : Z) (tri : arr btri).
Let U k := aget tri k.
Definition key (t : btri) : Z * Z * Z := fkey (ba t) (bb t) (bc t).
Definition keyn (k : Z) : Z * Z * Z := key (aget tri k).
Definition etab : list (Z * Z * Z * Z) := ftab all_faces.
Definition seen (k : Z) : list (Z * Z * Z * Z) := map (fun j => (keyn j, j)) (zrange 1 (k - 1)).
Definition some {A} (o : option A) : bool := match o with Some _ => true | None => false end.
Definition oval (o : option Z) : Z := match o with Some v => v | None => 0 end.
(** Kept: lies on a hashed face and is not the copy of an earlier one. *)
Definition keepb (k : Z) : bool := some (lk etab (keyn k)) && negb (some (lk (seen k) (keyn k))).
(** Preserved internal triangle. *)
Definition presb (k : Z) : bool :=
  opn && match lk etab (keyn k) with
         | Some v => let x := aget adj (4 * (Z.quot v 4 - 1) + 1 + Z.rem v 4) in
                     negb (x =? 0) && (tref (T (Z.quot v 4)) =? tref (T (Z.quot x 4)))
         | None => false
         end.
Definition flagged (k : Z) : btri :=
  let t1 := set_cc (U k) (oval (lk etab (keyn k))) in if keepb k then t1 else set_a t1 0.

Definition trok (t : btri) : Prop := 0 < ba t /\ 0 < bb t /\ 0 < bc t.
Hypothesis Hnt : 0 <= nt < alen tri.
Hypothesis Htr : forall k, 1 <= k <= nt -> trok (U k).

Lemma seen_pos k q w : In (q, w) (seen k) -> 1 <= w < k /\ keyn w = q.
Proof.
  clear Hnt Htr. intros H. unfold seen in H. apply in_map_iff in H. destruct H as (j & E & H). apply in_zrange in H. split; [|congruence]. assert (w = j) by congruence. lia. Qed.

Lemma etab_val k v : lk etab (keyn k) = Some v ->
  exists f, In f all_faces /\ hs f = true /\ v = 4 * fst f + snd f /\ kof f = keyn k.
Proof.
  intros H. apply lk_some in H. unfold etab, ftab in H. apply in_map_iff in H. destruct H as (f & E & H). apply filter_In in H.
  exists f. destruct H as [H1 H2]. split; [exact H1|]. split; [exact H2|]. split; congruence.
Qed.

Lemma flag_ok (g : Z -> Z) h : hrep h etab -> (forall k, 1 <= g k) ->
  exists tri1, flag_extra opn g nt tet adj (Some h) tri 0 = Ret (true, tri1, Z.of_nat (length (filter presb (filter keepb (zrange 1 nt))))) /\
    alen tri1 = alen tri /\ forall k, 1 <= k <= nt -> aget tri1 k = flagged k.
Proof.
  intros R Hg. unfold flag_extra. destruct (new_hrep nt ltac:(lia)) as (h0 & E0 & R0). rewrite E0. cbn [bind].
  match goal with |- context [for_range 1 nt ?f ?s] =>
    destruct (@for_range_inv (bool * otab * arr btri * Z) (fun k st => exists h tri' np, st = (true, Some h, tri', np) /\
       hrep h (seen k) /\ alen tri' = alen tri /\ (forall j, k <= j -> aget tri' j = U j) /\
       (forall j, 1 <= j < k -> aget tri' j = flagged j) /\ np = Z.of_nat (length (filter presb (filter keepb (zrange 1 (k - 1)))))) f 1 nt s)
      as (st & E & h1 & tri' & np & -> & R1 & L1 & A1 & B1 & N1) end.
  - lia.
  - exists h0, tri, 0. split; [reflexivity|]. split; [exact R0|]. split; [reflexivity|]. split; [reflexivity|]. split; [intros; lia|reflexivity].
  - intros k st Hk (h1 & tri' & np & -> & R1 & L1 & A1 & B1 & N1). cbn [negb].
    rewrite rd_ok by lia. cbn [bind]. rewrite (A1 k) by lia. destruct (Htr k Hk) as (P1 & P2 & P3).
    rewrite (get_ok h etab _ _ _ R P1 P2 P3). cbn [bind].
    destruct (ins_ok (g k) h1 (seen k) _ _ _ k R1 P1 P2 P3 (Hg k)) as (h2 & E2 & R2).
    { intros q w H. apply seen_pos in H. lia. }
    rewrite E2. cbn [bind]. rewrite wr_ok by lia. cbn [bind].
    change (fkey (ba (U k)) (bb (U k)) (bc (U k))) with (keyn k).
    change (fkey (ba (U k)) (bb (U k)) (bc (U k))) with (keyn k) in R2.
    assert (Rs : hrep h2 (seen (k + 1))).
    { unfold seen. replace (k + 1 - 1) with k by lia. rewrite (zrange_pred k) by lia. rewrite map_app. exact R2. }
    replace (k + 1 - 1) with k in * by lia.
    change (match lk etab (keyn k) with Some w => w | None => 0 end) with (oval (lk etab (keyn k))).
    rewrite (zrange_pred k) by lia.
    set (i := oval (lk etab (keyn k))). set (t1 := set_cc (U k) i).
    assert (Fin : forall a n b, b = keepb k -> a = (if b then t1 else set_a t1 0) -> n = np + (if b && presb k then 1 else 0) ->
       forall tr, alen tr = alen tri -> (forall j, aget tr j = if j =? k then a else aget tri' j) ->
       exists s', Ret (true, Some h2, tr, n) = Ret s' /\ exists h tri'0 np0, s' = (true, Some h, tri'0, np0) /\
         hrep h (seen (k + 1)) /\ alen tri'0 = alen tri /\ (forall j, k + 1 <= j -> aget tri'0 j = U j) /\
         (forall j, 1 <= j < k + 1 -> aget tri'0 j = flagged j) /\
         np0 = Z.of_nat (length (filter presb (filter keepb (zrange 1 (k - 1) ++ [k]))))).
    { intros a n b Eb Ea En tr Lr Hr. eexists. split; [reflexivity|]. exists h2, tr, n. split; [reflexivity|]. split; [exact Rs|].
      split; [exact Lr|]. split; [|split].
      - intros j Hj. rewrite Hr. destruct (Z.eqb_spec j k); [lia|]. apply A1. lia.
      - intros j Hj. rewrite Hr. destruct (Z.eqb_spec j k) as [->|]; [|apply B1; lia]. rewrite Ea, Eb. reflexivity.
      - rewrite filter_snoc, filter_app, app_length, Nat2Z.inj_add, En, N1, Eb. f_equal.
        destruct (keepb k); cbn [filter andb]; [|reflexivity]. destruct (presb k); reflexivity. }
    assert (W1 : forall j, upd (aget tri') k t1 j = if j =? k then t1 else aget tri' j) by reflexivity.
    assert (Kk : keepb k = some (lk etab (keyn k)) && negb (some (lk (seen k) (keyn k)))) by reflexivity.
    assert (Pk : presb k = opn && match lk etab (keyn k) with
         | Some v => let x := aget adj (4 * (Z.quot v 4 - 1) + 1 + Z.rem v 4) in
                     negb (x =? 0) && (tref (T (Z.quot v 4)) =? tref (T (Z.quot x 4)))
         | None => false
         end) by reflexivity.
    destruct (lk (seen k) (keyn k)) as [w|] eqn:Es.
    + pose proof (seen_pos _ _ _ (lk_some _ _ _ Es)) as [Pw _].
      destruct (Z.eqb_spec w 0); [lia|]. destruct (Z.ltb_spec 0 w); [|lia].
      rewrite wr_ok by (cbn [alen]; lia). cbn [bind]. apply Fin with (b := false) (a := set_a t1 0).
      * rewrite Kk. cbn [some negb]. rewrite andb_false_r. reflexivity.
      * reflexivity.
      * cbn [andb]. lia.
      * exact L1.
      * intros j. cbn [aget]. unfold upd. destruct (j =? k); reflexivity.
    + cbn [Z.eqb Z.ltb Z.compare]. destruct (lk etab (keyn k)) as [v|] eqn:Ee; cbn [oval some negb andb] in *.
      * destruct (etab_val k v Ee) as (f & Hf & _ & Ev & _). destruct f as [l j0]. cbn [fst snd] in Ev.
        pose proof Hf as Hf2. apply in_faces in Hf2. destruct (enc4 l j0) as (Q1 & Q2 & Q3); [lia|lia|].
        unfold i. cbn [oval]. destruct (Z.eqb_spec v 0) as [X|X]; [lia|].
        destruct opn eqn:Eo; cbn [andb] in Pk |- *.
        -- rewrite Ev, Q1, Q2 in Pk |- *. rewrite (rd_nb l j0 Hf). cbn [bind].
           change (aget adj (4 * (l - 1) + 1 + j0)) with (nb (l, j0)) in Pk. cbv zeta in Pk.
           destruct (Z.eqb_spec (nb (l, j0)) 0) as [Z0|N0].
           ++ apply Fin with (b := true) (a := t1); [symmetry; exact Kk|reflexivity|rewrite Pk; cbn [negb andb]; lia|exact L1|exact W1].
           ++ destruct (g_pk OK) as (G1 & G2 & _). rewrite (rd_ok tet (i:=l)) by lia. cbn [bind]. rewrite (rd_quot _ Hf). cbn [bind].
              apply Fin with (b := true) (a := t1); [symmetry; exact Kk|reflexivity| |exact L1|exact W1]. rewrite Pk. cbn [negb andb]. unfold T.
              destruct (tref (aget tet l) =? tref (aget tet (Z.quot (nb (l, j0)) 4))); lia.
        -- apply Fin with (b := true) (a := t1); [symmetry; exact Kk|reflexivity|rewrite Pk; cbn [andb]; lia|exact L1|exact W1].
      * unfold i. cbn [oval]. cbn [Z.eqb]. rewrite wr_ok by (cbn [alen]; lia). cbn [bind].
        apply Fin with (b := false) (a := set_a t1 0); [symmetry; exact Kk|reflexivity|cbn [andb]; lia|exact L1|].
        intros j. cbn [aget]. unfold upd. destruct (j =? k); reflexivity.
  - rewrite E. cbn [bind]. exists tri'. replace (nt + 1 - 1) with nt in N1 by lia. rewrite N1. split; [reflexivity|]. split; [exact L1|].
    intros k Hk. apply B1. lia.
Qed.

(** ** Compaction *)

Definition tlist (n : Z) (a : arr btri) : list btri := map (aget a) (zrange 1 n).

Lemma delete_ok a : nt < alen a -> exists a', delete_extra nt a = Ret (Z.of_nat (length (filter bok (tlist nt a))), a') /\
  tlist (Z.of_nat (length (filter bok (tlist nt a)))) a' = filter bok (tlist nt a) /\
  (alen a = nt + 1 -> alen a' = Z.of_nat (length (filter bok (tlist nt a))) + 1).
Proof.
  clear Htr.
  intros La. unfold delete_extra.
  match goal with |- context [for_range 1 nt ?f ?s] =>
    destruct (@for_range_inv (Z * Z * arr btri) (fun k st => exists b, 
       st = (Z.of_nat (length (filter bok (tlist (k - 1) a))), Z.of_nat (length (filter bok (tlist (k - 1) a))) + 1, b) /\
       Z.of_nat (length (filter bok (tlist (k - 1) a))) <= k - 1 /\
       alen b = alen a /\ (forall j, k <= j -> aget b j = aget a j) /\
       tlist (Z.of_nat (length (filter bok (tlist (k - 1) a)))) b = filter bok (tlist (k - 1) a)) f 1 nt s)
      as (st & E & b & -> & N1 & L1 & A1 & B1) end.
  - lia.
  - exists a. repeat split; auto. cbn. lia.
  - intros k st Hk (b & -> & N1 & L1 & A1 & B1). rewrite rd_ok by lia. cbn [bind]. rewrite (A1 k) by lia.
    replace (k + 1 - 1) with k by lia.
    assert (Et : filter bok (tlist k a) = filter bok (tlist (k - 1) a) ++ (if bok (aget a k) then [aget a k] else [])).
    { unfold tlist. rewrite (zrange_pred k) by lia. rewrite map_app. cbn [map]. apply filter_snoc. }
    rewrite Et. set (n := length (filter bok (tlist (k - 1) a))) in *. rewrite app_length, Nat2Z.inj_add.
    destruct (bok (aget a k)) eqn:Bk; cbn [negb length].
    + assert (G : forall b', alen b' = alen a -> (forall j, aget b' j = if j =? Z.of_nat n + 1 then aget a k else aget b j) ->
        exists s', Ret (Z.of_nat n + 1, Z.of_nat n + 1 + 1, b') = Ret s' /\ exists b0, s' = (Z.of_nat n + Z.of_nat 1, Z.of_nat n + Z.of_nat 1 + 1, b0) /\
          Z.of_nat n + Z.of_nat 1 <= k /\ alen b0 = alen a /\ (forall j, k + 1 <= j -> aget b0 j = aget a j) /\
          tlist (Z.of_nat n + Z.of_nat 1) b0 = filter bok (tlist (k - 1) a) ++ [aget a k]).
      { intros b' Lb Hb. eexists. split; [reflexivity|]. exists b'. split; [reflexivity|]. split; [lia|]. split; [exact Lb|]. split.
        - intros j Hj. rewrite Hb. destruct (Z.eqb_spec j (Z.of_nat n + 1)); [lia|]. apply A1. lia.
        - rewrite <- B1. unfold tlist. change (Z.of_nat 1) with 1. rewrite zrange_snoc by lia. rewrite map_app. cbn [map].
          rewrite Hb, Z.eqb_refl. f_equal. apply map_ext_in. intros j Hj. apply in_zrange in Hj. rewrite Hb.
          destruct (Z.eqb_spec j (Z.of_nat n + 1)); [lia|reflexivity]. }
      destruct (Z.eqb_spec k (Z.of_nat n + 1)) as [Ek|Nk]; cbn [bind].
      * apply G; [exact L1|]. intros j. destruct (Z.eqb_spec j (Z.of_nat n + 1)) as [->|]; [|reflexivity]. rewrite <- Ek. apply A1. lia.
      * rewrite wr_ok by lia. cbn [bind]. apply G; [exact L1|]. intros j. reflexivity.
    + eexists. split; [reflexivity|]. exists b. rewrite !Z.add_0_r. split; [reflexivity|]. split; [lia|]. split; [exact L1|].
      split; [intros; apply A1; lia|]. rewrite app_nil_r. exact B1.
  - rewrite E. cbn [bind]. replace (nt + 1 - 1) with nt in * by lia. set (n := length (filter bok (tlist nt a))) in *.
    destruct (Z.eqb_spec (nt - Z.of_nat n) 0) as [E0|N0].
    + exists b. assert (En : nt = Z.of_nat n) by lia. split; [rewrite En; reflexivity|]. split; [exact B1|]. lia.
    + eexists. split; [reflexivity|]. split; [|intros _; reflexivity]. rewrite <- B1. unfold tlist. apply map_ext_in. intros j Hj. apply in_zrange in Hj.
      unfold arecalloc. cbn [aget]. destruct (Z.ltb_spec j (alen b)); [reflexivity|lia].
Qed.

(** ** Tags of the points *)

Definition vs (t : btri) : list Z := [ba t; bb t; bc t].
Definition tagged (p p0 : arr Z) (S : list Z) : Prop :=
  alen p = alen p0 /\ forall i, aget p i = if existsb (Z.eqb i) S then Z.lor (aget p0 i) BDY else aget p0 i.

Lemma existsb_in i S : existsb (Z.eqb i) S = true <-> In i S.
Proof.
  rewrite existsb_exists. split; [intros (x & H & E); apply Z.eqb_eq in E; subst; exact H|]. intros H. exists i. split; [exact H|apply Z.eqb_refl].
Qed.
Lemma tagged_ext p p0 S S' : tagged p p0 S -> (forall i, In i S <-> In i S') -> tagged p p0 S'.
Proof.
  intros [A B] H. split; [exact A|]. intros i. rewrite B.
  assert (E : existsb (Z.eqb i) S = existsb (Z.eqb i) S').
  { specialize (H i). rewrite <- !existsb_in in H. destruct (existsb (Z.eqb i) S), (existsb (Z.eqb i) S'); intuition congruence. }
  rewrite E. reflexivity.
Qed.
Lemma tag1 p p0 S v : tagged p p0 S -> 0 <= v < alen p0 ->
  exists p', rd p v = Ret (aget p v) /\ wr p v (Z.lor (aget p v) BDY) = Ret p' /\ tagged p' p0 (S ++ [v]).
Proof.
  intros [A B] Hv. eexists. split; [apply rd_ok; lia|]. split; [apply wr_ok; lia|]. split; [exact A|]. intros i. cbn [aget]. unfold upd.
  rewrite existsb_app. cbn [existsb]. rewrite !B. destruct (Z.eqb_spec i v) as [->|N].
  - rewrite orb_true_r. destruct (existsb (Z.eqb v) S); [|reflexivity]. rewrite <- Z.lor_assoc, Z.lor_diag. reflexivity.
  - rewrite !orb_false_r. reflexivity.
Qed.
Lemma tag_ok p p0 S t : tagged p p0 S -> (forall v, In v (vs t) -> 0 <= v < alen p0) ->
  exists p', tag_tri p t = Ret p' /\ tagged p' p0 (S ++ vs t).
Proof.
  intros H Hv. unfold tag_tri, vs in *.
  destruct (tag1 p p0 S (ba t) H) as (p1 & E1 & F1 & H1); [apply Hv; cbn; auto|].
  destruct (tag1 p1 p0 _ (bb t) H1) as (p2 & E2 & F2 & H2); [apply Hv; cbn; auto|].
  destruct (tag1 p2 p0 _ (bc t) H2) as (p3 & E3 & F3 & H3); [apply Hv; cbn; auto|].
  exists p3. rewrite E1. cbn [bind]. rewrite F1. cbn [bind]. rewrite E2. cbn [bind]. rewrite F2. cbn [bind]. rewrite E3. cbn [bind]. split; [exact F3|].
  rewrite <- !app_assoc in H3. exact H3.
Qed.

Lemma tlist_snoc n a : 0 <= n -> tlist (n + 1) a = tlist n a ++ [aget a (n + 1)].
Proof.
  clear Hnt Htr. intros H. unfold tlist. rewrite zrange_snoc by lia. apply map_app. Qed.
Lemma tlist_len n a : 0 <= n -> Z.of_nat (length (tlist n a)) = n.
Proof.
  clear Hnt Htr. intros H. unfold tlist, zrange. rewrite !map_length, seq_length. lia. Qed.
Lemma in_tlist n a k : 1 <= k <= n -> In (aget a k) (tlist n a).
Proof.
  clear Hnt Htr nt tri U. intros H. unfold tlist. apply in_map. apply in_zrange. lia. Qed.

(** The loop tagging all the triangles *)
Lemma tag_all n a p p0 S : 0 <= n < alen a -> tagged p p0 S -> (forall k v, 1 <= k <= n -> In v (vs (aget a k)) -> 0 <= v < alen p0) ->
  exists p', for_range 1 n (fun k p => t <- rd a k ;; tag_tri p t) p = Ret p' /\ tagged p' p0 (S ++ flat_map vs (tlist n a)).
Proof.
  intros Hn H Hv.
  destruct (@for_range_inv (arr Z) (fun k p => tagged p p0 (S ++ flat_map vs (tlist (k - 1) a))) (fun k p => t <- rd a k ;; tag_tri p t) 1 n p)
    as (p' & E & R).
  - lia.
  - cbn. rewrite app_nil_r. exact H.
  - intros k q Hk R. rewrite rd_ok by lia. cbn [bind]. destruct (tag_ok q p0 _ (aget a k) R) as (q' & E & R'); [intros v X; exact (Hv k v Hk X)|].
    exists q'. split; [exact E|]. replace (k + 1 - 1) with (k - 1 + 1) by lia. rewrite tlist_snoc by lia. replace (k - 1 + 1) with k by lia.
    rewrite flat_map_app. cbn [flat_map]. rewrite app_nil_r, app_assoc. exact R'.
  - exists p'. split; [exact E|]. replace (n + 1 - 1) with n in R by lia. exact R.
Qed.

(** ** Missing triangles *)

Context (iref : Z -> Z -> Z).
Definition newt (f : Z * Z) : btri :=
  mkB (fa (T (fst f)) (snd f)) (fb (T (fst f)) (snd f)) (fc (T (fst f)) (snd f))
      (if nb f =? 0 then tref (T (fst f)) else iref (tref (T (fst f))) (tref (T (Z.quot (nb f) 4)))) (4 * fst f + snd f) 0.
Definition wtab (n : Z) (a : arr btri) : list (Z * Z * Z * Z) := map (fun k => (key (aget a k), k)) (zrange 1 n).
Definition mb (n : Z) (a : arr btri) (f : Z * Z) : bool := is_b f && negb (some (lk (wtab n a) (kof f))).
Definition miss (n : Z) (a : arr btri) : list (Z * Z) := filter (mb n a) all_faces.

Lemma nb_quot f : In f all_faces -> (Z.quot (nb f) 4 =? 0) = (nb f =? 0).
Proof.
  intros H. destruct (nb_cases f H) as [->|(g & Hg & _ & E & _)]; [reflexivity|].
  destruct g as [l j]. apply in_faces in Hg. rewrite E. cbn [fst snd]. destruct (enc4 l j) as (Q & _ & N); [lia|lia|]. rewrite Q.
  apply Z.eqb_neq in N. rewrite N. apply Z.eqb_neq. lia.
Qed.

Lemma newt_range n f v : (forall k i, 1 <= k <= ne -> 0 <= i < 4 -> tv (T k) i < n) -> In f all_faces -> In v (vs (newt f)) -> 0 < v < n.
Proof.
  destruct f as [k i]. intros Ht Hf X. destruct (fpos k i Hf) as (P1 & P2 & P3). apply in_faces in Hf. unfold vs, newt in X. cbn [In ba bb bc fst snd] in X.
  unfold fa, fb, fc in *. destruct Hf as [Hk Hi].
  assert (Bi : forall z, tv (T k) z = v -> 0 <= z < 4 -> v < n) by (intros z <- Hz4; apply Ht; auto).
  assert (i = 0 \/ i = 1 \/ i = 2 \/ i = 3) as D by lia.
  destruct X as [X|[X|[X|[]]]]; (split; [rewrite <- X; assumption|]); apply (Bi _ X);
    destruct D as [->|[->|[->| ->]]]; vm_compute; (split; [discriminate|reflexivity]).
Qed.

Lemma bdry_ok iso gt m n a p0 : 0 <= n < m -> alen a = m + 1 -> n + Z.of_nat (length (miss n a)) = m -> (forall k, 1 <= gt k) ->
  (forall k, 1 <= k <= n -> trok (aget a k)) ->
  (forall k v, 1 <= k <= n -> In v (vs (aget a k)) -> v < alen p0) ->
  (forall k i, 1 <= k <= ne -> 0 <= i < 4 -> tv (T k) i < alen p0) ->
  (forall k, n < k -> aget a k = btri0) ->
  exists a' p', bdry_tria iso iref gt m n ne tet adj a p0 = Ret (1, a', m, p') /\
    tlist m a' = tlist n a ++ map newt (miss n a) /\ alen a' = m + 1 /\ tagged p' p0 (flat_map vs (tlist m a')).
Proof.
  intros Hn La Hm Hg Ha Hv Ht Hz. unfold bdry_tria.
  (* table of the given triangles *)
  assert (S1 : exists o p1, (o <- (if n =? 0 then Ret None else h <- hashNew (51 * n / 100) (151 * n / 100) ;; Ret (Some h)) ;;
    for_range 1 n (fun k (st : bool * otab * arr Z) =>
      let '(ok, o, p) := st in
      if negb ok then Ret st
      else
        t <- rd a k ;;
        '(v, o1) <- ins_face (gt k) o (ba t) (bb t) (bc t) k ;;
        if v =? 0 then Ret (false, o1, p)
        else if iso then Ret (true, o1, p) else p1 <- tag_tri p t ;; Ret (true, o1, p1)) (true, o, p0)) = Ret (true, o, p1) /\
     (forall f, In f all_faces -> get_face o (fa (T (fst f)) (snd f)) (fb (T (fst f)) (snd f)) (fc (T (fst f)) (snd f)) = Ret (oval (lk (wtab n a) (kof f)))) /\
     exists S, tagged p1 p0 S /\ incl S (flat_map vs (tlist n a))).
  { destruct (Z.eqb_spec n 0) as [->|Nz].
    - cbn [bind]. exists None, p0. split; [reflexivity|]. split; [reflexivity|]. exists []. split; [split; reflexivity|]. intros x [].
    - destruct (new_hrep n ltac:(lia)) as (h0 & E0 & R0). rewrite E0. cbn [bind].
      match goal with |- context [for_range 1 n ?f ?s] =>
        destruct (@for_range_inv (bool * otab * arr Z) (fun k st => exists h p, st = (true, Some h, p) /\ hrep h (wtab (k - 1) a) /\
           exists S, tagged p p0 S /\ incl S (flat_map vs (tlist (k - 1) a))) f 1 n s) as (st & E & h & p & -> & R & S & Hs & Is) end.
      + lia.
      + exists h0, p0. split; [reflexivity|]. split; [exact R0|]. exists []. split; [split; reflexivity|]. intros x [].
      + intros k st Hk (h & p & -> & R & S & Hs & Is). cbn [negb]. rewrite rd_ok by lia. cbn [bind].
        destruct (Ha k Hk) as (P1 & P2 & P3).
        destruct (ins_ok (gt k) h _ _ _ _ k R P1 P2 P3 (Hg k)) as (h' & E' & R').
        { intros q w H. unfold wtab in H. apply in_map_iff in H. destruct H as (j & Ej & H). apply in_zrange in H. assert (w = j) by congruence. lia. }
        rewrite E'. cbn [bind].
        assert (Rk : hrep h' (wtab (k + 1 - 1) a)).
        { unfold wtab. replace (k + 1 - 1) with k by lia. rewrite (zrange_pred k) by lia. rewrite map_app. exact R'. }
        assert (Nv : (match lk (wtab (k - 1) a) (fkey (ba (aget a k)) (bb (aget a k)) (bc (aget a k))) with Some w => w | None => -1 end =? 0) = false).
        { destruct (lk _ _) as [w|] eqn:F; [|reflexivity]. apply lk_some in F. unfold wtab in F. apply in_map_iff in F.
          destruct F as (j & Ej & H). apply in_zrange in H. apply Z.eqb_neq. assert (w = j) by congruence. lia. }
        rewrite Nv.
        assert (Ts : tlist (k + 1 - 1) a = tlist (k - 1) a ++ [aget a k]).
        { replace (k + 1 - 1) with (k - 1 + 1) by lia. rewrite tlist_snoc by lia. do 3 f_equal. lia. }
        destruct iso.
        * eexists. split; [reflexivity|]. exists h', p. split; [reflexivity|]. split; [exact Rk|]. exists S. split; [exact Hs|].
          rewrite Ts, flat_map_app. apply incl_appl. exact Is.
        * destruct (tag_ok p p0 S (aget a k) Hs) as (p' & Et & Hs').
          { intros v X. split; [|exact (Hv k v Hk X)]. unfold vs in X. cbn [In] in X. lia. }
          rewrite Et. cbn [bind]. eexists. split; [reflexivity|]. exists h', p'. split; [reflexivity|]. split; [exact Rk|]. exists (S ++ vs (aget a k)).
          split; [exact Hs'|]. rewrite Ts, flat_map_app. cbn [flat_map]. rewrite app_nil_r. apply incl_app; [apply incl_appl; exact Is|apply incl_appr, incl_refl].
      + replace (n + 1 - 1) with n in * by lia. exists (Some h), p. split; [exact E|]. split; [|exists S; auto].
        intros [k i] Hf. destruct (fpos k i Hf) as (P1 & P2 & P3). cbn [fst snd]. rewrite (get_ok h _ _ _ _ R P1 P2 P3). reflexivity. }
  destruct S1 as (o & p1 & E1 & G1 & S0 & T0 & I0).
  destruct (if n =? 0 then _ else _) as [oo|] in E1 |- *; cbn [bind] in E1 |- *; [|discriminate].
  rewrite E1. cbn [bind negb]. destruct (Z.eqb_spec m n) as [X|_]; [lia|].
  rewrite each_fold.
  match goal with |- context [foldM ?f all_faces ?s] =>
    destruct (foldM_inv (Z * Z) (arr btri * Z * arr Z) (fun pre st => exists a' p, st = (a', n + Z.of_nat (length (filter (mb n a) pre)), p) /\
       alen a' = m + 1 /\ tlist (n + Z.of_nat (length (filter (mb n a) pre))) a' = tlist n a ++ map newt (filter (mb n a) pre) /\
       (forall k, n + Z.of_nat (length (filter (mb n a) pre)) < k -> aget a' k = btri0) /\
       exists S, tagged p p0 S /\ incl S (flat_map vs (tlist (n + Z.of_nat (length (filter (mb n a) pre))) a'))) f all_faces s)
      as (st & E2 & a2 & p2 & -> & L2 & T2 & _ & S2 & H2 & I2) end.
  - exists a, p1. cbn [filter length map]. rewrite Z.add_0_r, app_nil_r. split; [reflexivity|]. split; [exact La|]. split; [reflexivity|]. split; [exact Hz|].
    exists S0. auto.
  - intros pre [k i] post st Ef (a' & p & -> & La' & Ta & Za & S & Hs & Is). pose proof (in_split_faces _ _ _ Ef) as Hf. cbn [fst snd].
    rewrite (rd_nb k i Hf). cbn [bind]. rewrite (rd_quot _ Hf). cbn [bind]. rewrite (nb_quot _ Hf).
    rewrite filter_snoc.
    assert (Bk : is_b (k, i) = (nb (k, i) =? 0) || (tref (T (Z.quot (nb (k, i)) 4)) <? tref (T k))) by reflexivity.
    assert (Bn : negb (nb (k, i) =? 0) && (tref (T k) <=? tref (T (Z.quot (nb (k, i)) 4))) = negb (is_b (k, i))).
    { rewrite Bk, negb_orb, <- Z.leb_antisym. reflexivity. }
    rewrite Bn. assert (Mk : mb n a (k, i) = is_b (k, i) && negb (some (lk (wtab n a) (kof (k, i))))) by reflexivity.
    set (nn := length (filter (mb n a) pre)) in *.
    assert (Keep : mb n a (k, i) = false -> exists s', Ret (a', n + Z.of_nat nn, p) = Ret s' /\
       exists a'0 p3, s' = (a'0, n + Z.of_nat (length (filter (mb n a) pre ++ (if mb n a (k, i) then [(k, i)] else []))), p3) /\
       alen a'0 = m + 1 /\ tlist (n + Z.of_nat (length (filter (mb n a) pre ++ (if mb n a (k, i) then [(k, i)] else [])))) a'0 =
         tlist n a ++ map newt (filter (mb n a) pre ++ (if mb n a (k, i) then [(k, i)] else [])) /\
       (forall k0, n + Z.of_nat (length (filter (mb n a) pre ++ (if mb n a (k, i) then [(k, i)] else []))) < k0 -> aget a'0 k0 = btri0) /\
       exists S, tagged p3 p0 S /\ incl S (flat_map vs (tlist (n + Z.of_nat (length (filter (mb n a) pre ++ (if mb n a (k, i) then [(k, i)] else [])))) a'0))).
    { intros M. rewrite M. rewrite app_nil_r. eexists. split; [reflexivity|]. exists a', p. split; [reflexivity|]. split; [exact La'|]. split; [exact Ta|]. split; [exact Za|].
      exists S. auto. }
    destruct (is_b (k, i)) eqn:Ib; cbn [negb andb] in Mk |- *; [|exact (Keep Mk)].
    pose proof (G1 _ Hf) as Gk. cbn [fst snd] in Gk. rewrite Gk. cbn [bind].
    destruct (lk (wtab n a) (kof (k, i))) as [w|] eqn:Lw; cbn [oval some negb] in Mk |- *.
    + apply lk_some in Lw. unfold wtab in Lw. apply in_map_iff in Lw. destruct Lw as (j & Ej & H). apply in_zrange in H.
      assert (Nw : w <> 0). { assert (w = j) by congruence. lia. } apply Z.eqb_neq in Nw. rewrite Nw. exact (Keep Mk).
    + cbn [Z.eqb negb]. clear Keep. rewrite Mk, app_length, Nat2Z.inj_add. fold nn. cbn [length].
      assert (Bd : n + Z.of_nat nn + 1 <= m).
      { assert (X : length (miss n a) = (nn + (1 + length (filter (mb n a) post)))%nat).
        { unfold miss. rewrite Ef, filter_app. cbn [filter]. rewrite Mk, app_length. reflexivity. }
        rewrite X in Hm. lia. }
      rewrite rd_ok by lia. cbn [bind]. rewrite (Za (n + Z.of_nat nn + 1)) by lia. cbn [bdat btri0]. rewrite wr_ok by lia. cbn [bind].
      match goal with |- context [tag_tri p ?x] => change x with (newt (k, i)) end.
      destruct (tag_ok p p0 S (newt (k, i)) Hs) as (p' & Et & Hs').
      { intros v X. pose proof (newt_range _ _ v Ht Hf X). lia. }
      rewrite Et. cbn [bind]. eexists. split; [reflexivity|]. eexists. exists p'. split.
      { f_equal. f_equal. lia. }
      assert (Tn : forall b, (forall j, aget b j = if j =? n + Z.of_nat nn + 1 then newt (k, i) else aget a' j) ->
          tlist (n + Z.of_nat nn + 1) b = tlist (n + Z.of_nat nn) a' ++ [newt (k, i)]).
      { intros b Hb. rewrite tlist_snoc by lia. rewrite Hb, Z.eqb_refl. f_equal. unfold tlist. apply map_ext_in. intros j Hj. apply in_zrange in Hj. rewrite Hb.
        destruct (Z.eqb_spec j (n + Z.of_nat nn + 1)); [lia|reflexivity]. }
      replace (n + (Z.of_nat nn + Z.of_nat 1)) with (n + Z.of_nat nn + 1) by lia.
      split; [exact La'|]. split; [|split].
      * rewrite Tn by reflexivity. rewrite Ta, map_app, app_assoc. reflexivity.
      * intros j Hj. cbn [aget]. rewrite upd_other by lia. apply Za. lia.
      * exists (S ++ vs (newt (k, i))). split; [exact Hs'|]. rewrite Tn by reflexivity. rewrite flat_map_app. cbn [flat_map]. rewrite app_nil_r.
        apply incl_app; [apply incl_appl; exact Is|apply incl_appr, incl_refl].
  - change (filter (mb n a) all_faces) with (miss n a) in *. rewrite Hm in *.
    rewrite E2. cbn [bind]. rewrite Z.eqb_refl. cbn [c_assert bind].
    destruct (tag_all m a2 p2 p0 S2) as (p3 & E3 & H3); [lia|exact H2| |].
    { intros k v Hk X. assert (Y : In (aget a2 k) (tlist m a2)) by (apply in_tlist; exact Hk). rewrite T2 in Y. apply in_app_or in Y.
      revert X. generalize dependent (aget a2 k). intros t [Y|Y] X.
      - unfold tlist in Y. apply in_map_iff in Y. destruct Y as (j & <- & Hj). apply in_zrange in Hj. split; [|apply (Hv j); [lia|exact X]].
        destruct (Ha j ltac:(lia)) as (A & B & C). unfold vs in X. cbn [In] in X. lia.
      - apply in_map_iff in Y. destruct Y as (f & <- & Hf). apply filter_In in Hf. pose proof (newt_range _ _ v Ht (proj1 Hf) X). lia. }
    rewrite E3. cbn [bind]. exists a2, p3. split; [reflexivity|]. split; [exact T2|]. split; [exact L2|].
    apply tagged_ext with (1 := H3). intros v. rewrite in_app_iff. split; [intros [X|X]; [exact (I2 v X)|exact X]|auto].
Qed.


(** ** Counting *)

Definition kl : list Z := filter keepb (zrange 1 nt).
Definition kt (k : Z) : btri := set_cc (U k) (oval (lk etab (keyn k))).

Lemma filter_flagged : filter bok (map flagged (zrange 1 nt)) = map kt kl.
Proof.
  clear iref Hnt.
  unfold kl. assert (H : forall k, In k (zrange 1 nt) -> trok (U k)) by (intros k Hk; apply Htr; apply in_zrange in Hk; lia).
  revert H. generalize (zrange 1 nt). induction l as [|k l IH]; intros H; [reflexivity|]. cbn [map filter].
  assert (B : bok (flagged k) = keepb k).
  { unfold flagged, bok. destruct (keepb k); cbn [ba set_cc set_a]; [|reflexivity]. apply Z.ltb_lt. apply (H k (or_introl eq_refl)). }
  rewrite B. destruct (keepb k) eqn:K; [|apply IH; intros j Hj; apply H; right; exact Hj]. cbn [map]. f_equal.
  - unfold flagged. rewrite K. reflexivity.
  - apply IH. intros j Hj; apply H; right; exact Hj.
Qed.

Lemma found_iff n a q : some (lk (wtab n a) q) = true <-> In q (map key (tlist n a)).
Proof.
  unfold tlist. rewrite map_map. split.
  - destruct (lk (wtab n a) q) as [v|] eqn:F; [|discriminate]. intros _. apply lk_some in F. unfold wtab in F. apply in_map_iff in F.
    destruct F as (j & E & H). apply in_map_iff. exists j. split; [congruence|exact H].
  - intros H. apply in_map_iff in H. destruct H as (j & E & H). destruct (lk (wtab n a) q) as [v|] eqn:F; [reflexivity|].
    exfalso. apply (proj1 (lk_none _ _) F j). unfold wtab. apply in_map_iff. exists j. split; [congruence|exact H].
Qed.

Lemma key_kt l : map key (map kt l) = map keyn l.
Proof. rewrite map_map. reflexivity. Qed.

Lemma nodup_keys p : NoDup (map keyn (filter p kl)).
Proof.
  clear iref Htr.
  unfold kl.
  assert (G : forall n, NoDup (map keyn (filter p (filter keepb (zrange 1 (Z.of_nat n)))))).
  { induction n as [|n IH]; [constructor|]. rewrite (zrange_pred (Z.of_nat (S n))) by lia. replace (Z.of_nat (S n) - 1) with (Z.of_nat n) by lia.
    rewrite filter_snoc. destruct (keepb (Z.of_nat (S n))) eqn:K; [|rewrite app_nil_r; exact IH].
    rewrite filter_snoc. destruct (p (Z.of_nat (S n))); [|rewrite app_nil_r; exact IH]. rewrite map_app. apply NoDup_app_intro.
    - exact IH.
    - repeat constructor. intros [].
    - intros q H1 [<-|[]]. apply in_map_iff in H1. destruct H1 as (j & E & H1). apply filter_In in H1. destruct H1 as [H1 _]. apply filter_In in H1.
      destruct H1 as [H1 _]. apply in_zrange in H1. unfold keepb in K. apply andb_true_iff in K. destruct K as [_ K].
      destruct (lk (seen (Z.of_nat (S n))) (keyn (Z.of_nat (S n)))) eqn:F; [discriminate|]. apply (proj1 (lk_none _ _) F j). unfold seen.
      apply in_map_iff. exists j. split; [congruence|]. apply in_zrange. lia. }
  specialize (G (Z.to_nat nt)). rewrite Z2Nat.id in G by lia. exact G.
Qed.

(** Two faces with the same vertices, one of which has a neighbour *)
Lemma two_faces f g g' : In f all_faces -> In g all_faces -> In g' all_faces -> g <> g' -> kof f = kof g -> kof g = kof g' -> f = g \/ f = g'.
Proof. intros Hf Hg Hg' N E1 E2. destruct (g_conf OK f g g' Hf Hg Hg' E1 (eq_trans E1 E2)) as [X|[X|X]]; auto. contradiction. Qed.

Lemma is_b_nb f g : In g all_faces -> nb f = 4 * fst g + snd g -> is_b f = (tref (T (fst g)) <? tref (T (fst f))).
Proof.
  clear opn Hnt Htr nt tri U iref OK.
  intros Hg E. unfold is_b. rewrite E. destruct g as [l j]. apply in_faces in Hg. cbn [fst snd]. destruct (enc4 l j) as (Q & _ & N); [lia|lia|].
  rewrite Q. apply Z.eqb_neq in N. rewrite N. reflexivity.
Qed.

(** The kept triangles that are not preserved internal ones are those on the boundary. *)
Lemma kept_b k : In k kl -> (presb k = false <-> exists f, In f all_faces /\ is_b f = true /\ kof f = keyn k).
Proof.
  clear iref.
  intros H. unfold kl in H. apply filter_In in H. destruct H as [Hk K]. unfold keepb in K. apply andb_true_iff in K. destruct K as [K _].
  destruct (lk etab (keyn k)) as [v|] eqn:F; [|discriminate]. destruct (etab_val k v F) as (g & Hg & Sg & Ev & Kg).
  assert (Pk : presb k = opn && (negb (nb g =? 0) && (tref (T (fst g)) =? tref (T (Z.quot (nb g) 4))))).
  { unfold presb. rewrite F. destruct g as [l j]. cbn [fst snd] in *. pose proof Hg as Hg2. apply in_faces in Hg2. destruct (enc4 l j) as (Q1 & Q2 & _); [lia|lia|].
    rewrite Ev, Q1, Q2. reflexivity. }
  split.
  - intros P. rewrite Pk in P. unfold hs in Sg. destruct opn; cbn [andb orb] in *; [|exists g; auto].
    destruct (nb_cases g Hg) as [Z0|(g' & Hg' & Ng & E1 & E2 & Kgg)].
    + exists g. split; [exact Hg|]. split; [|exact Kg]. unfold is_b. rewrite Z0. reflexivity.
    + rewrite E1 in P. destruct g' as [l j]. pose proof Hg' as X. apply in_faces in X. cbn [fst snd] in *. destruct (enc4 l j) as (Q1 & _ & Q3); [lia|lia|].
      rewrite Q1 in P. apply Z.eqb_neq in Q3. rewrite Q3 in P. cbn [negb andb] in P. apply Z.eqb_neq in P.
      destruct (Z.lt_total (tref (T (fst g))) (tref (T l))) as [L|[L|L]]; [|contradiction|].
      * exists (l, j). split; [exact Hg'|]. split; [|congruence]. rewrite (is_b_nb _ g Hg E2). cbn [fst]. apply Z.ltb_lt. exact L.
      * exists g. split; [exact Hg|]. split; [|exact Kg]. rewrite (is_b_nb g (l, j) Hg' E1). apply Z.ltb_lt. exact L.
  - intros (f & Hf & Bf & Kf). rewrite Pk. destruct opn; [|reflexivity]. cbn [andb].
    destruct (nb_cases g Hg) as [Z0|(g' & Hg' & Ng & E1 & E2 & Kgg)]; [rewrite Z0; reflexivity|].
    destruct (negb (nb g =? 0) && (tref (T (fst g)) =? tref (T (Z.quot (nb g) 4)))) eqn:P; [|reflexivity]. exfalso.
    apply andb_true_iff in P. destruct P as [_ P]. apply Z.eqb_eq in P.
    assert (Q : Z.quot (nb g) 4 = fst g'). { rewrite E1. destruct g' as [l j]. apply in_faces in Hg'. cbn [fst snd]. apply enc4; lia. }
    rewrite Q in P.
    destruct (two_faces f g g' Hf Hg Hg' (fun X => Ng (eq_sym X)) (eq_trans Kf (eq_sym Kg)) Kgg) as [->| ->].
    + rewrite (is_b_nb g g' Hg' E1) in Bf. apply Z.ltb_lt in Bf. lia.
    + rewrite (is_b_nb g' g Hg E2) in Bf. apply Z.ltb_lt in Bf. lia.
Qed.

Lemma count_all n a : tlist n a = map kt kl ->
  (length kl + length (miss n a) = length bfaces + length (filter presb kl))%nat.
Proof.
  clear iref.
  intros Ha. pose proof (filter_len Z presb kl) as F1.
  pose proof (filter_len (Z * Z) (fun f => some (lk (wtab n a) (kof f))) bfaces) as F2.
  assert (E2 : filter (fun f => negb (some (lk (wtab n a) (kof f)))) bfaces = miss n a).
  { unfold bfaces, miss. rewrite filter_filter. reflexivity. }
  cbv beta in F1, F2. rewrite E2 in F2.
  assert (P : Permutation (map kof (filter (fun f => some (lk (wtab n a) (kof f))) bfaces)) (map keyn (filter (fun k => negb (presb k)) kl))).
  { apply NoDup_Permutation.
    - assert (N : NoDup (filter (fun f => some (lk (wtab n a) (kof f))) bfaces)) by (apply NoDup_filter, NoDup_filter, nodup_faces).
      assert (I : forall f, In f (filter (fun f => some (lk (wtab n a) (kof f))) bfaces) -> In f all_faces /\ is_b f = true).
      { intros f H. apply filter_In in H. destruct H as [H _]. apply filter_In in H. exact H. }
      revert N I. generalize (filter (fun f => some (lk (wtab n a) (kof f))) bfaces). induction l as [|x l IH]; intros N I; cbn [map]; [constructor|].
      inversion N as [|? ? Nx Nl]; subst. constructor; [|apply IH; [exact Nl|intros f Hf; apply I; right; exact Hf]].
      intros H. apply in_map_iff in H. destruct H as (y & E & Hy). destruct (I x (or_introl eq_refl)), (I y (or_intror Hy)).
      assert (x = y) by (apply same_b; auto). subst. contradiction.
    - apply nodup_keys.
    - intros q. rewrite !in_map_iff. split.
      + intros (f & <- & H). apply filter_In in H. destruct H as [H W]. apply filter_In in H. destruct H as [Hf Bf].
        apply found_iff in W. rewrite Ha, key_kt in W. apply in_map_iff in W. destruct W as (k & Ek & Hk). exists k. split; [exact Ek|].
        apply filter_In. split; [exact Hk|]. apply negb_true_iff. apply kept_b; [exact Hk|]. exists f. split; [exact Hf|]. split; [exact Bf|]. symmetry. exact Ek.
      + intros (k & <- & H). apply filter_In in H. destruct H as [Hk P]. apply negb_true_iff in P. apply (kept_b k Hk) in P.
        destruct P as (f & Hf & Bf & Kf). exists f. split; [exact Kf|]. apply filter_In. split; [apply filter_In; auto|].
        apply found_iff. rewrite Ha, key_kt, Kf. apply in_map. exact Hk. }
  apply Permutation_length in P. rewrite !map_length in P. lia.
Qed.

(** ** The whole check *)

Definition missing : list (Z * Z) := filter (fun f => is_b f && negb (existsb (fun k => keyb (keyn k) (kof f)) kl)) all_faces.

Lemma miss_eq n a : tlist n a = map kt kl -> miss n a = missing.
Proof.
  intros Ha. unfold miss, missing. apply filter_ext. intros f. unfold mb. f_equal. f_equal.
  assert (X : some (lk (wtab n a) (kof f)) = true <-> existsb (fun k => keyb (keyn k) (kof f)) kl = true).
  { rewrite found_iff, Ha, key_kt, existsb_exists, in_map_iff. split; intros (k & A & B); exists k.
    - split; [exact B|]. apply keyb_ok. exact A.
    - split; [apply keyb_ok; exact B|exact A]. }
  destruct (some (lk (wtab n a) (kof f))), (existsb (fun k => keyb (keyn k) (kof f)) kl); intuition congruence.
Qed.

Lemma chk_ok iso ge gs gt p0 : alen tri = nt + 1 -> (forall k i, 1 <= ge k i) -> (forall k, 1 <= gs k) -> (forall k, 1 <= gt k) ->
  (forall k v, 1 <= k <= nt -> In v (vs (U k)) -> v < alen p0) ->
  (forall k i, 1 <= k <= ne -> 0 <= i < 4 -> tv (T k) i < alen p0) ->
  exists a p m, chk_bdry opn iso iref ge gs gt nt ne tet adj tri p0 = Ret (1, a, m, p) /\
    tlist m a = map kt kl ++ map newt missing /\ m = Z.of_nat (length kl + length missing) /\ m < alen a /\
    tagged p p0 (flat_map vs (tlist m a)).
Proof.
  intros La G1 G2 G3 Hv Ht. unfold chk_bdry. rewrite count_ok. cbn [bind].
  assert (S : exists a, (if nt =? 0 then Ret (tri, nt, 0)
     else
       '(_, elt) <- hash_bdry opn ge (Z.of_nat (length bfaces)) ne tet adj ;;
       '(_, tri1, np) <- flag_extra opn gs nt tet adj elt tri 0 ;;
       '(n, tri2) <- delete_extra nt tri1 ;;
       Ret (tri2, n, np)) = Ret (a, Z.of_nat (length kl), Z.of_nat (length (filter presb kl))) /\
     tlist (Z.of_nat (length kl)) a = map kt kl /\ alen a = Z.of_nat (length kl) + 1).
  { destruct (Z.eqb_spec nt 0) as [E0|N0].
    - exists tri. unfold kl. rewrite E0. cbn. rewrite La, E0. auto.
    - destruct (hash_ok ge (Z.of_nat (length bfaces)) ltac:(lia) G1) as (h & Eh & Rh). rewrite Eh. cbn [bind].
      destruct (flag_ok gs h Rh G2) as (t1 & E1 & L1 & H1). rewrite E1. cbn [bind].
      destruct (delete_ok t1 ltac:(lia)) as (a & E2 & T2 & L2). rewrite E2. cbn [bind].
      assert (Tl : tlist nt t1 = map flagged (zrange 1 nt)).
      { unfold tlist. apply map_ext_in. intros k Hk. apply in_zrange in Hk. apply H1. lia. }
      rewrite Tl, filter_flagged, map_length in *. exists a. split; [reflexivity|]. split; [exact T2|]. apply L2. lia. }
  destruct S as (a & E & Ta & L). rewrite E. cbn [bind]. clear E.
  pose proof (count_all _ a Ta) as C. rewrite (miss_eq _ a Ta) in C.
  set (n := Z.of_nat (length kl)) in *. set (m := Z.of_nat (length bfaces) + Z.of_nat (length (filter presb kl))).
  assert (Em : m = n + Z.of_nat (length missing)) by lia.
  assert (Ka : forall t, In t (tlist n a) -> exists k, 1 <= k <= nt /\ t = kt k).
  { intros t X. rewrite Ta in X. apply in_map_iff in X. destruct X as (k & <- & Hk). apply filter_In in Hk. destruct Hk as [Hk _]. apply in_zrange in Hk.
    exists k. split; [lia|reflexivity]. }
  assert (Ra : forall k, 1 <= k <= n -> trok (aget a k)).
  { intros k Hk. destruct (Ka (aget a k) (in_tlist n a k Hk)) as (j & Hj & ->). apply Htr. exact Hj. }
  assert (Va : forall k v, 1 <= k <= n -> In v (vs (aget a k)) -> v < alen p0).
  { intros k v Hk. destruct (Ka (aget a k) (in_tlist n a k Hk)) as (j & Hj & ->). apply (Hv j). exact Hj. }
  unfold add_missing. destruct (Z.eqb_spec n m) as [Enm|Nnm].
  - destruct (tag_all n a p0 p0 []) as (p & Ep & Hp); [lia|split; reflexivity| |].
    { intros k v Hk X. split; [|exact (Va k v Hk X)]. destruct (Ra k Hk) as (A & B & D). unfold vs in X. cbn [In] in X. lia. }
    rewrite Ep. cbn [bind]. exists a, p, n. split; [reflexivity|].
    assert (M0 : missing = []) by (destruct missing; [reflexivity|cbn [length] in Em; lia]). rewrite M0. cbn [map]. rewrite app_nil_r, Nat.add_0_r.
    split; [exact Ta|]. split; [reflexivity|]. split; [lia|]. exact Hp.
  - assert (B : exists b, (if n =? 0 then Ret (acalloc (m + 1) btri0)
             else _ <- c_assert (n <? m) ;; Ret (arecalloc a (m + 1) btri0)) = Ret b /\ alen b = m + 1 /\
             (forall k, 1 <= k <= n -> aget b k = aget a k) /\ (forall k, n < k -> aget b k = btri0)).
    { destruct (Z.eqb_spec n 0) as [Ez|Nz].
      - exists (acalloc (m + 1) btri0). split; [reflexivity|]. split; [reflexivity|]. split; [intros; lia|reflexivity].
      - exists (arecalloc a (m + 1) btri0). assert (Lt : (n <? m) = true) by (apply Z.ltb_lt; lia). rewrite Lt. split; [reflexivity|]. split; [reflexivity|].
        unfold arecalloc. cbn [aget]. split; intros k Hk.
        + destruct (Z.ltb_spec k (alen a)); [reflexivity|lia].
        + destruct (Z.ltb_spec k (alen a)); [lia|reflexivity]. }
    destruct B as (b & Eb & Lb & Hb & Zb). rewrite Eb. cbn [bind]. clear Eb.
    assert (Tb : tlist n b = map kt kl).
    { rewrite <- Ta. unfold tlist. apply map_ext_in. intros k Hk. apply in_zrange in Hk. apply Hb. lia. }
    pose proof (miss_eq n b Tb) as Mb.
    destruct (bdry_ok iso gt m n b p0) as (a' & p & E' & T' & L' & P'); auto.
    + lia.
    + rewrite Mb. lia.
    + intros k Hk. rewrite Hb by exact Hk. apply Ra. exact Hk.
    + intros k v Hk. rewrite Hb by exact Hk. apply Va. exact Hk.
    + rewrite E'. cbn [bind]. exists a', p, m. split; [reflexivity|]. rewrite Tb, Mb in T'. split; [exact T'|]. split; [lia|]. split; [lia|exact P'].
Qed.
End Mesh.
