(** Symbolic execution of the splitting patterns and its transfer to C values. *)
From Coq Require Import ZArith List Lia Bool Arith Permutation.
From Verif Require Import CBase SplitModel.
Import ListNotations.
Open Scope nat_scope.

(** ** The interpreter commutes with renaming *)

Section Map.
  Variables (V A O V' A' O' : Type) (fV : V -> V') (fA : A -> A') (fO : O -> O').
  Variables (dV : V) (zero : A) (oset : O).

  Definition msub (s : sub V A O) : sub V' A' O' :=
    Sub (map fV (sv s)) (map fA (sref s)) (map fA (sftag s)) (map fO (sori s))
        (map fA (stag s)) (map fA (sedg s)).

  Lemma map_set_nth B C (f : B -> C) i x l : map f (set_nth i x l) = set_nth i (f x) (map f l).
  Proof.
    unfold set_nth. rewrite map_app, firstn_map, skipn_map.
    destruct (skipn i l); reflexivity.
  Qed.

  Lemma map_at_nth j f g (l : list (sub V A O)) :
    (forall s, msub (f s) = g (msub s)) -> map msub (at_nth j f l) = at_nth j g (map msub l).
  Proof.
    intros H. unfold at_nth. rewrite map_app, firstn_map, skipn_map.
    destruct (skipn j l); simpl; [reflexivity | rewrite H; reflexivity].
  Qed.

  Lemma run1_map tau taued vx ft a l :
    map msub (run1 dV zero oset tau taued vx ft a l) =
    run1 (fV dV) (fA zero) (fO oset) tau taued (map fV vx) (map fA ft) a (map msub l).
  Proof.
    destruct a; unfold run1; apply map_at_nth; intros s; unfold msub; cbn [sv sref sftag sori stag sedg];
      rewrite map_set_nth, ?map_nth; reflexivity.
  Qed.

  Lemma runs_map tau taued vx ft p : forall l,
    map msub (runs dV zero oset tau taued vx ft p l) =
    runs (fV dV) (fA zero) (fO oset) tau taued (map fV vx) (map fA ft) p (map msub l).
  Proof.
    unfold runs. induction p as [|a p IH]; intros l; cbn [fold_left]; [reflexivity|].
    rewrite IH, run1_map. reflexivity.
  Qed.

  Lemma runsim_map tau taued v vx p : forall cur,
    map (map fV) (runsim dV tau taued v vx p cur) =
    runsim (fV dV) tau taued (map fV v) (map fV vx) p (map fV cur).
  Proof.
    induction p as [|a p IH]; intros cur; cbn [runsim map]; [reflexivity|].
    destruct a; cbn [map]; rewrite ?IH, ?map_set_nth, ?map_nth; reflexivity.
  Qed.
End Map.

(** ** Symbolic values *)

(** Labels 0..3: vertices of the parent; 4..9: new vertices of edges 0..5; 10: none. *)
Inductive src : Type :=
| SR (f : nat) | SF (f : nat) | ST (e : nat) | SE (e : nat) | SU (f : nat) | SJ (f : nat) | S0.
Inductive osrc : Type := OP (f : nat) | OSet.
Notation ssub := (sub nat src osrc).

Definition sparent : ssub :=
  Sub [0; 1; 2; 3] (map SR [0; 1; 2; 3]) (map SF [0; 1; 2; 3]) (map OP [0; 1; 2; 3])
      (map ST [0; 1; 2; 3; 4; 5]) (map SE [0; 1; 2; 3; 4; 5]).
Definition svx : list nat := [4; 5; 6; 7; 8; 9].

Definition ssplit (pos : list bool) (T : list (list bool)) : outcome (list ssub) :=
  pl <- splan pos T ;;
  Ret (runs 10 S0 OSet (ptau pl) (ptaued pl) svx (map (if pjunk pl then SJ else SU) [0; 1; 2; 3])
            (pprog pl) (repeat sparent (pne pl))).

Definition stested (pos : list bool) (T : list (list bool)) : outcome (list (list nat)) :=
  '(tau, taued, p) <- simplan pos T ;;
  Ret (runsim 10 tau taued [0; 1; 2; 3] svx p [0; 1; 2; 3]).

Definition ev (v vx : list Z) (l : nat) : Z := if l <? 4 then nth l v 0%Z else nth (l - 4) vx 0%Z.
Definition ea (p : csub) (junk : list Z) (a : src) : Z :=
  match a with
  | SR f => nth f (sref p) 0%Z | SF f => nth f (sftag p) 0%Z
  | ST e => nth e (stag p) 0%Z | SE e => nth e (sedg p) 0%Z
  | SU f => unref (nth f (sftag p) 0%Z) | SJ f => unref (nth f junk 0%Z) | S0 => 0%Z
  end.
Definition eo (p : csub) (o : osrc) : bool := match o with OP f => nth f (sori p) false | OSet => true end.
Definition esub (vx : list Z) (p : csub) (junk : list Z) : ssub -> csub :=
  msub _ _ _ _ _ _ (ev (sv p) vx) (ea p junk) (eo p).

Definition wf (p : csub) : Prop :=
  length (sv p) = 4 /\ length (sref p) = 4 /\ length (sftag p) = 4 /\ length (sori p) = 4 /\
  length (stag p) = 6 /\ length (sedg p) = 6.

Lemma len4 A (l : list A) : length l = 4 -> exists a b c d, l = [a; b; c; d].
Proof. destruct l as [|a [|b [|c [|d [|e l]]]]]; cbn; intros H; try discriminate. eauto 10. Qed.
Lemma len6 A (l : list A) : length l = 6 -> exists a b c d e f, l = [a; b; c; d; e; f].
Proof.
  destruct l as [|a [|b [|c [|d [|e [|f [|g l]]]]]]]; cbn; intros H; try discriminate. eauto 10.
Qed.

Lemma esub_parent vx p junk : wf p -> esub vx p junk sparent = p.
Proof.
  destruct p as [v r ft o t e]. unfold wf. cbn [sv sref sftag sori stag sedg].
  intros (H1 & H2 & H3 & H4 & H5 & H6).
  apply len4 in H1, H2, H3, H4. apply len6 in H5, H6.
  destruct H1 as (?&?&?&?&->). destruct H2 as (?&?&?&?&->). destruct H3 as (?&?&?&?&->).
  destruct H4 as (?&?&?&?&->). destruct H5 as (?&?&?&?&?&?&->). destruct H6 as (?&?&?&?&?&?&->).
  reflexivity.
Qed.

Lemma map_repeat A B (f : A -> B) x n : map f (repeat x n) = repeat (f x) n.
Proof. induction n; cbn; [reflexivity | rewrite IHn; reflexivity]. Qed.

Lemma ev_parent v vx : length v = 4 -> map (ev v vx) [0; 1; 2; 3] = v.
Proof. intros H. apply len4 in H. destruct H as (?&?&?&?&->). reflexivity. Qed.
Lemma ev_new v vx : length vx = 6 -> map (ev v vx) svx = vx.
Proof. intros H. apply len6 in H. destruct H as (?&?&?&?&?&?&->). reflexivity. Qed.
Lemma ev_none v vx : length vx = 6 -> ev v vx 10 = 0%Z.
Proof. intros H. apply len6 in H. destruct H as (?&?&?&?&?&?&->). reflexivity. Qed.

Lemma split_sym junk vx p :
  wf p -> length vx = 6 -> length junk = 4 ->
  split junk vx p =
  match ssplit (posl vx) (ltab (sv p)) with Ret l => Ret (map (esub vx p junk) l) | Stuck => Stuck end.
Proof.
  intros W Hx Hj. unfold split, ssplit.
  destruct (splan (posl vx) (ltab (sv p))) as [pl|]; [|reflexivity]. cbn [bind]. f_equal.
  symmetry. etransitivity; [apply runs_map|]. fold (esub vx p junk).
  rewrite map_repeat, esub_parent by exact W.
  rewrite ev_none, ev_new by exact Hx.
  cbn [ea eo]. f_equal. destruct W as (_ & _ & Hf & _).
  apply len4 in Hj. destruct Hj as (?&?&?&?&->).
  destruct p as [v r ft o t e]. cbn [sftag] in *. apply len4 in Hf. destruct Hf as (?&?&?&?&->).
  destruct (pjunk pl); reflexivity.
Qed.

Lemma tested_sym vx v :
  length v = 4 -> length vx = 6 ->
  tested vx v =
  match stested (posl vx) (ltab v) with Ret l => Ret (map (map (ev v vx)) l) | Stuck => Stuck end.
Proof.
  intros Hv Hx. unfold tested, stested.
  destruct (simplan (posl vx) (ltab v)) as [[[tau taued] p]|]; [|reflexivity]. cbn [bind]. f_equal.
  rewrite runsim_map, ev_none, ev_new, ev_parent by assumption. reflexivity.
Qed.

(** ** Enumeration of the marks and of the orders of four distinct integers *)

Fixpoint bools (n : nat) : list (list bool) :=
  match n with 0 => [[]] | S n => map (cons true) (bools n) ++ map (cons false) (bools n) end.

Lemma bools_all n l : length l = n -> In l (bools n).
Proof.
  revert l. induction n as [|n IH]; intros [|b l] H; try discriminate; cbn [bools].
  - left; reflexivity.
  - apply in_or_app. destruct b; [left|right]; apply in_map; apply IH; cbn in H; lia.
Qed.

Definition orders : list (list Z) :=
  [[0;1;2;3];[0;1;3;2];[0;2;1;3];[0;2;3;1];[0;3;1;2];[0;3;2;1];
   [1;0;2;3];[1;0;3;2];[1;2;0;3];[1;2;3;0];[1;3;0;2];[1;3;2;0];
   [2;0;1;3];[2;0;3;1];[2;1;0;3];[2;1;3;0];[2;3;0;1];[2;3;1;0];
   [3;0;1;2];[3;0;2;1];[3;1;0;2];[3;1;2;0];[3;2;0;1];[3;2;1;0]]%Z.

(** Rank of each entry. *)
Definition ranks (v : list Z) : list Z :=
  map (fun a => fold_right (fun b n => if (b <? a)%Z then n + 1 else n)%Z 0%Z v) v.

Lemma orders_all v : length v = 4 -> NoDup v -> In (ranks v) orders /\ ltab (ranks v) = ltab v.
Proof.
  intros H N. apply len4 in H. destruct H as (a & b & c & d & ->).
  inversion N as [|? ? N1 N2]; subst. inversion N2 as [|? ? N3 N4]; subst.
  inversion N4 as [|? ? N5 N6]; subst. cbn [In] in *.
  assert (Hab : a <> b) by (intros ->; tauto). assert (Hac : a <> c) by (intros ->; tauto). assert (Had : a <> d) by (intros ->; tauto).
  assert (Hbc : b <> c) by (intros ->; tauto). assert (Hbd : b <> d) by (intros ->; tauto). assert (Hcd : c <> d) by (intros ->; tauto).
  clear N N1 N2 N3 N4 N5 N6.
  unfold ranks, ltab. cbn [map fold_right]. rewrite !Z.ltb_irrefl.
  assert (T : forall x y : Z, x <> y -> ((x <? y)%Z = true /\ (y <? x)%Z = false) /\ (x < y)%Z \/
                                   ((x <? y)%Z = false /\ (y <? x)%Z = true) /\ (y < x)%Z).
  { intros x y Hn. destruct (Z.ltb_spec x y), (Z.ltb_spec y x); try lia; auto. }
  destruct (T a b Hab) as [ [ [-> ->] ?] | [ [-> ->] ?] ];
  destruct (T a c Hac) as [ [ [-> ->] ?] | [ [-> ->] ?] ];
  destruct (T b c Hbc) as [ [ [-> ->] ?] | [ [-> ->] ?] ]; try (exfalso; clear T; lia);
  destruct (T a d Had) as [ [ [-> ->] ?] | [ [-> ->] ?] ];
  destruct (T b d Hbd) as [ [ [-> ->] ?] | [ [-> ->] ?] ]; try (exfalso; clear T; lia);
  destruct (T c d Hcd) as [ [ [-> ->] ?] | [ [-> ->] ?] ]; try (exfalso; clear T; lia);
  (split; [vm_compute; repeat (first [left; reflexivity | right]) | reflexivity]).
Qed.

Definition all_cases (check : list bool -> list (list bool) -> bool) : bool :=
  forallb (fun pos => forallb (fun r => check pos (ltab r)) orders) (bools 6).

Lemma all_cases_ok check vx v :
  all_cases check = true -> length vx = 6 -> length v = 4 -> NoDup v ->
  check (posl vx) (ltab v) = true.
Proof.
  unfold all_cases. intros H Hx Hv N.
  assert (Hb : In (posl vx) (bools 6)) by (apply bools_all; unfold posl; rewrite map_length; exact Hx).
  rewrite forallb_forall in H. specialize (H (posl vx) Hb). cbv beta in H. rewrite forallb_forall in H.
  destruct (orders_all v Hv N) as [Hi He]. specialize (H (ranks v) Hi). rewrite He in H. exact H.
Qed.

(** ** Geometry of labels *)

Definition supp (l : nat) : list nat :=
  if l <? 4 then [l] else let '(a, b) := iare (l - 4) in [a; b].
(** Label valid for these marks. *)
Definition valid (pos : list bool) (l : nat) : bool :=
  (l <? 4) || ((l <? 10) && nth (l - 4) pos false).
Definition lface (f l : nat) : bool := negb (inl f (supp l)).
Definition ledge (e l : nat) : bool :=
  forallb (fun x => (x =? fst (iare e)) || (x =? snd (iare e))) (supp l).

Definition src_eqb (a b : src) : bool :=
  match a, b with
  | SR i, SR j | SF i, SF j | ST i, ST j | SE i, SE j | SU i, SU j | SJ i, SJ j => i =? j
  | S0, S0 => true
  | _, _ => false
  end.
Lemma src_eqb_eq a b : src_eqb a b = true -> a = b.
Proof. destruct a, b; cbn; intros H; try discriminate; try (apply Nat.eqb_eq in H; subst); reflexivity. Qed.
Definition osrc_eqb (a b : osrc) : bool :=
  match a, b with OP i, OP j => i =? j | OSet, OSet => true | _, _ => false end.
Lemma osrc_eqb_eq a b : osrc_eqb a b = true -> a = b.
Proof. destruct a, b; cbn; intros H; try discriminate; try (apply Nat.eqb_eq in H; subst); reflexivity. Qed.

Definition l4 : list nat := [0; 1; 2; 3].
Definition l6 : list nat := [0; 1; 2; 3; 4; 5].

(** Labels of face [i] and of edge [e] of a sub-tetrahedron. *)
Definition lface_of {A} (d : A) (s : list A) (i : nat) : list A := map (fun k => nth k s d) (idir i).
Definition on_ret {A} (o : outcome A) (c : A -> bool) : bool := match o with Ret a => c a | Stuck => false end.

Definition chk_shape (pos : list bool) (T : list (list bool)) : bool :=
  on_ret (ssplit pos T) (forallb (fun s =>
    (length (sv s) =? 4) && forallb (valid pos) (sv s) &&
    (length (sref s) =? 4) && (length (sftag s) =? 4) && (length (sori s) =? 4) &&
    (length (stag s) =? 6) && (length (sedg s) =? 6))).

(** References and tags of the faces. *)
Definition chk_faces (pos : list bool) (T : list (list bool)) : bool :=
  on_ret (ssplit pos T) (forallb (fun s => forallb (fun i =>
    let tri := lface_of 10 (sv s) i in
    forallb (fun f => implb (forallb (lface f) tri)
                            (src_eqb (nth i (sref s) S0) (SR f) && src_eqb (nth i (sftag s) S0) (SF f))) l4 &&
    (existsb (fun f => forallb (lface f) tri) l4 ||
     (src_eqb (nth i (sref s) (SR 0)) S0 && src_eqb (nth i (sftag s) (SF 0)) S0))) l4)).

(** Orientation bits; [skip] excludes some marks. *)
Definition chk_ori (skip : nat -> bool) (pos : list bool) (T : list (list bool)) : bool :=
  skip (flag_of 1 pos) ||
  on_ret (ssplit pos T) (forallb (fun s => forallb (fun i =>
    let tri := lface_of 10 (sv s) i in
    forallb (fun f => implb (forallb (lface f) tri) (osrc_eqb (nth i (sori s) OSet) (OP f))) l4 &&
    (existsb (fun f => forallb (lface f) tri) l4 || osrc_eqb (nth i (sori s) (OP 0)) OSet)) l4)).

(** References of the edges, and their tags unless skipped. *)
Definition chk_edges (skip : nat -> bool) (pos : list bool) (T : list (list bool)) : bool :=
  on_ret (ssplit pos T) (forallb (fun s => forallb (fun e =>
    let ends := [nth (fst (iare e)) (sv s) 10; nth (snd (iare e)) (sv s) 10] in
    let tg := nth e (stag s) (SR 0) in let eg := nth e (sedg s) (SR 0) in
    let sk := skip (flag_of 1 pos) in
    forallb (fun k => implb (forallb (ledge k) ends) (src_eqb eg (SE k) && src_eqb tg (ST k))) l6 &&
    (existsb (fun k => forallb (ledge k) ends) l6 ||
     (src_eqb eg S0 &&
      (sk || (forallb (fun f => implb (forallb (lface f) ends) (src_eqb tg (SU f))) l4 &&
              (existsb (fun f => forallb (lface f) ends) l4 || src_eqb tg S0)))))) l6)).

Definition is_op (flag : nat) : bool := inl flag l_split3op.
Definition is_six (flag : nat) : bool := flag =? 63.

Lemma shape_all : all_cases chk_shape = true.
Proof. vm_compute. reflexivity. Qed.
Lemma faces_all : all_cases chk_faces = true.
Proof. vm_compute. reflexivity. Qed.
Lemma ori_all : all_cases (chk_ori is_op) = true.
Proof. vm_compute. reflexivity. Qed.
Lemma edges_all : all_cases (chk_edges is_six) = true.
Proof. vm_compute. reflexivity. Qed.
