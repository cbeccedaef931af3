(** Triangles induced on the faces of the parent, pairing of the inner faces,
    agreement of the simulations, and their transfer to C values. *)
From Coq Require Import ZArith List Lia Bool Arith Permutation.
From Verif Require Import CBase SplitModel SplitProofs.
Import ListNotations.
Open Scope nat_scope.

(** ** Lists of triangles up to order *)

Definition same_tris {A} (L M : list (list A)) : Prop :=
  exists M', Permutation M M' /\ Forall2 (@Permutation A) L M'.

Lemma forall2_perm_r {A} (R : A -> A -> Prop) (L M N : list A) :
  Forall2 R L M -> Permutation M N -> exists L', Permutation L L' /\ Forall2 R L' N.
Proof.
  intros H P. revert L H. induction P; intros L0 H.
  - inversion H; subst. exists []. split; constructor.
  - inversion H as [|a ? L1 ? Ha HL]; subst. destruct (IHP L1 HL) as [L' [P1 F1]].
    exists (a :: L'). split; [constructor; exact P1 | constructor; assumption].
  - inversion H as [|a ? L1 ? Ha HL]; subst. inversion HL as [|b ? L2 ? Hb HL2]; subst.
    exists (b :: a :: L2). split; [constructor | repeat constructor; assumption].
  - destruct (IHP1 L0 H) as [L1 [Q1 F1]]. destruct (IHP2 L1 F1) as [L2 [Q2 F2]].
    exists L2. split; [eapply perm_trans; eassumption | exact F2].
Qed.

Lemma forall2_sym {A} (R S : A -> A -> Prop) L M :
  (forall a b, R a b -> S b a) -> Forall2 R L M -> Forall2 S M L.
Proof. intros H F. induction F; constructor; auto. Qed.

Lemma forall2_trans {A} (R : A -> A -> Prop) (L M N : list A) :
  (forall a b c, R a b -> R b c -> R a c) -> Forall2 R L M -> Forall2 R M N -> Forall2 R L N.
Proof.
  intros T F. revert N. induction F; intros N G; inversion G; subst; constructor; eauto.
Qed.

Lemma same_refl {A} (L : list (list A)) : same_tris L L.
Proof. exists L. split; [reflexivity | induction L; constructor; auto]. Qed.

Lemma same_sym {A} (L M : list (list A)) : same_tris L M -> same_tris M L.
Proof.
  intros [M' [P F]]. apply Permutation_sym in P.
  destruct (forall2_perm_r _ _ _ _ F P) as [L' [P' F']].
  exists L'. split; [exact P'|]. eapply forall2_sym; [|exact F']. intros; apply Permutation_sym; assumption.
Qed.

Lemma same_trans {A} (L M N : list (list A)) : same_tris L M -> same_tris M N -> same_tris L N.
Proof.
  intros [M' [P F]] [N' [Q G]].
  assert (exists N2, Permutation N' N2 /\ Forall2 (@Permutation A) M' N2) as [N2 [Q2 G2]].
  { assert (G' : Forall2 (@Permutation A) N' M).
    { eapply forall2_sym; [|exact G]. intros; apply Permutation_sym; assumption. }
    destruct (forall2_perm_r _ _ _ _ G' P) as [N2 [Q2 F2]]. exists N2. split; [exact Q2|].
    eapply forall2_sym; [|exact F2]. intros; apply Permutation_sym; assumption. }
  exists N2. split; [eapply perm_trans; eassumption|].
  eapply forall2_trans; [|exact F|exact G2]. intros a b c; apply perm_trans.
Qed.

Lemma same_map {A B} (f : A -> B) L M : same_tris L M -> same_tris (map (map f) L) (map (map f) M).
Proof.
  intros [M' [P F]]. exists (map (map f) M'). split; [apply Permutation_map; exact P|].
  clear P. induction F; cbn [map]; constructor; [apply Permutation_map; assumption | assumption].
Qed.

(** Deciding: remove the first occurrence. *)
Definition rem1 (x : nat) : list nat -> option (list nat) :=
  fix go l := match l with
  | [] => None
  | y :: r => if x =? y then Some r else match go r with Some r' => Some (y :: r') | None => None end
  end.
Fixpoint permb (a b : list nat) : bool :=
  match a with
  | [] => match b with [] => true | _ => false end
  | x :: r => match rem1 x b with Some b' => permb r b' | None => false end
  end.
Lemma rem1_ok x l r : rem1 x l = Some r -> Permutation l (x :: r).
Proof.
  revert r. induction l as [|y l IH]; cbn; intros r H; [discriminate|].
  destruct (Nat.eqb_spec x y) as [->|].
  - injection H as <-. reflexivity.
  - destruct (rem1 x l) as [r'|]; [|discriminate]. injection H as <-.
    rewrite (IH r' eq_refl). apply perm_swap.
Qed.
Lemma permb_ok a : forall b, permb a b = true -> Permutation a b.
Proof.
  induction a as [|x a IH]; intros b H; cbn in H.
  - destruct b; [constructor | discriminate].
  - destruct (rem1 x b) as [b'|] eqn:E; [|discriminate].
    rewrite (rem1_ok _ _ _ E). constructor. apply IH. exact H.
Qed.

Definition remt (x : list nat) : list (list nat) -> option (list nat * list (list nat)) :=
  fix go l := match l with
  | [] => None
  | y :: r => if permb x y then Some (y, r) else match go r with Some (z, r') => Some (z, y :: r') | None => None end
  end.
Fixpoint sameb (L M : list (list nat)) : bool :=
  match L with
  | [] => match M with [] => true | _ => false end
  | x :: r => match remt x M with Some (_, M') => sameb r M' | None => false end
  end.
Lemma remt_ok x l y r : remt x l = Some (y, r) -> Permutation l (y :: r) /\ Permutation x y.
Proof.
  revert y r. induction l as [|z l IH]; cbn; intros y r H; [discriminate|].
  destruct (permb x z) eqn:E.
  - injection H as <- <-. split; [reflexivity | apply permb_ok; exact E].
  - destruct (remt x l) as [[u r']|]; [|discriminate]. injection H as <- <-.
    destruct (IH u r' eq_refl) as [P Q]. split; [|exact Q]. rewrite P. apply perm_swap.
Qed.
Lemma sameb_ok L : forall M, sameb L M = true -> same_tris L M.
Proof.
  induction L as [|x L IH]; intros M H; cbn in H.
  - destruct M; [apply same_refl | discriminate].
  - destruct (remt x M) as [[y M']|] eqn:E; [|discriminate].
    destruct (remt_ok _ _ _ _ E) as [P Q]. destruct (IH M' H) as [M2 [P2 F2]].
    exists (y :: M2). split; [rewrite P; constructor; exact P2 | constructor; assumption].
Qed.

(** ** Faces of the created tetrahedra *)

Definition faces_of {A} (d : A) (s : list A) : list (list A) := map (lface_of d s) l4.
Definition all_faces {A} (d : A) (L : list (list A)) : list (list A) := flat_map (faces_of d) L.

(** Edge joining two vertices. *)
Definition edge_between (a b : nat) : nat :=
  match find (fun e => let '(x, y) := iare e in ((x =? a) && (y =? b)) || ((x =? b) && (y =? a))) l6 with
  | Some e => e | None => 0
  end.
(** Edge of face [f] opposite to its [i]-th vertex. *)
Definition eopp (f i : nat) : nat :=
  edge_between (nth ((i + 1) mod 3) (idir f) 0) (nth ((i + 2) mod 3) (idir f) 0).

(** The triangles that a face must be cut into.  The labels 0, 1, 2 are the
    vertices of the face and 3, 4, 5 the new vertices of the opposite edges.
    [m]: marked edges; [lt]: order of the vertex numbers.  When two edges are
    marked, the remaining quadrilateral is cut from the smaller of its two
    vertices. *)
Definition tri_spec (m : list bool) (lt : nat -> nat -> bool) : list (list nat) :=
  let two (a b c : nat) := (* the edges from [a] are marked *)
    [a; 3 + b; 3 + c] :: (if lt b c then [[b; c; 3 + b]; [b; 3 + b; 3 + c]]
                          else [[c; b; 3 + c]; [c; 3 + b; 3 + c]]) in
  match m with
  | [false; false; false] => [[0; 1; 2]]
  | [true; false; false] => [[0; 1; 3]; [0; 3; 2]]
  | [false; true; false] => [[1; 2; 4]; [1; 4; 0]]
  | [false; false; true] => [[2; 0; 5]; [2; 5; 1]]
  | [false; true; true] => two 0 1 2
  | [true; false; true] => two 1 2 0
  | [true; true; false] => two 2 0 1
  | _ => [[0; 5; 4]; [1; 3; 5]; [2; 4; 3]; [3; 4; 5]]
  end.

(** Label in the tetrahedron of a label of face [f]. *)
Definition flab (f l : nat) : nat := if l <? 3 then nth l (idir f) 0 else 4 + eopp f (l - 3).

Definition chk_conf (pos : list bool) (T : list (list bool)) : bool :=
  on_ret (ssplit pos T) (fun L => forallb (fun f =>
    sameb (filter (forallb (lface f)) (all_faces 10 (map sv L)))
          (map (map (flab f)) (tri_spec (map (fun i => nth (eopp f i) pos false) [0; 1; 2])
                                        (fun a b => ltt T (flab f a) (flab f b))))) l4).

Lemma conf_all : all_cases chk_conf = true.
Proof. vm_compute. reflexivity. Qed.

(** Each face occurs once on the boundary and twice inside. *)
Definition chk_pair (pos : list bool) (T : list (list bool)) : bool :=
  on_ret (ssplit pos T) (fun L =>
    let F := all_faces 10 (map sv L) in
    forallb (fun t => length (filter (permb t) F) =?
                      (if existsb (fun f => forallb (lface f) t) l4 then 1 else 2)) F).

Lemma pair_all : all_cases chk_pair = true.
Proof. vm_compute. reflexivity. Qed.

(** Simulations. *)
Definition eqln (a b : list (list nat)) : bool :=
  if list_eq_dec (list_eq_dec Nat.eq_dec) a b then true else false.
Definition chk_sim (pos : list bool) (T : list (list bool)) : bool :=
  negb (existsb (fun b => b) pos) ||
  on_ret (ssplit pos T) (fun L => on_ret (stested pos T) (fun M => eqln (map sv L) M)).
Lemma sim_all : all_cases chk_sim = true.
Proof. vm_compute. reflexivity. Qed.

(** Invariance of [tri_spec] by renumbering of the face. *)
Definition perms3 : list (list nat) := [[0;1;2];[0;2;1];[1;0;2];[1;2;0];[2;0;1];[2;1;0]].
Definition prm (s : list nat) (l : nat) : nat := if l <? 3 then nth l s 0 else 3 + nth (l - 3) s 0.
Definition orders3 : list (list Z) := [[0;1;2];[0;2;1];[1;0;2];[1;2;0];[2;0;1];[2;1;0]]%Z.
Lemma spec_inv :
  forallb (fun s => forallb (fun m => forallb (fun r =>
    sameb (map (map (prm s)) (tri_spec (map (fun i => nth (prm s i) m false) [0; 1; 2])
                                       (fun a b => ltt (ltab r) (prm s a) (prm s b))))
          (tri_spec m (ltt (ltab r)))) orders3) (bools 3)) perms3 = true.
Proof. vm_compute. reflexivity. Qed.

(** ** Labels and C values *)

(** All vertex numbers, old and new, are distinct. *)
Definition fresh (v vx : list Z) : Prop := NoDup (v ++ filter (fun x => (0 <? x)%Z) vx).

Lemma NoDup_app_l {A} (a b : list A) : NoDup (a ++ b) -> NoDup a.
Proof.
  induction a; cbn; intros H; [constructor|]. inversion H; subst. constructor; [|auto].
  intros Hi. apply H2. apply in_or_app. left. exact Hi.
Qed.
Lemma NoDup_app_r {A} (a b : list A) : NoDup (a ++ b) -> NoDup b.
Proof. induction a; cbn; intros H; [exact H|]. inversion H; subst. auto. Qed.
Lemma NoDup_app_x {A} (a b : list A) x : NoDup (a ++ b) -> In x a -> In x b -> False.
Proof.
  induction a; cbn; intros H Ha Hb; [exact Ha|]. inversion H; subst. destruct Ha as [->|Ha].
  - apply H2. apply in_or_app. right. exact Hb.
  - auto.
Qed.

Lemma fresh_nodup v vx : fresh v vx -> NoDup v.
Proof. apply NoDup_app_l. Qed.

Lemma filter_nodup_nth {A} (P : A -> bool) (d : A) (l : list A) : NoDup (filter P l) ->
  forall i j, i < length l -> j < length l -> P (nth i l d) = true -> nth i l d = nth j l d -> i = j.
Proof.
  induction l as [|x l IH]; intros N i j Hi Hj Hp E; [cbn in Hi; lia|].
  cbn in N. destruct i as [|i], j as [|j]; cbn in *; [reflexivity | | |].
  - rewrite Hp in N. apply NoDup_cons_iff in N. exfalso. apply (proj1 N). apply filter_In. split; [|exact Hp].
    rewrite E. apply nth_In. lia.
  - rewrite E in Hp. rewrite Hp in N. apply NoDup_cons_iff in N. exfalso. apply (proj1 N). apply filter_In.
    split; [|exact Hp]. rewrite <- E. apply nth_In. lia.
  - f_equal. apply IH; try lia; try assumption. destruct (P x); [inversion N; assumption | exact N].
Qed.

Lemma nth_posl vx e : nth e (posl vx) false = (0 <? nth e vx 0)%Z.
Proof. unfold posl. rewrite <- (map_nth (fun x => (0 <? x)%Z)). reflexivity. Qed.

Lemma valid_cases vx l : valid (posl vx) l = true ->
  l < 4 \/ (4 <= l < 10 /\ (0 < nth (l - 4) vx 0)%Z).
Proof.
  unfold valid. rewrite orb_true_iff, andb_true_iff, !Nat.ltb_lt, nth_posl, Z.ltb_lt.
  destruct (Nat.lt_ge_cases l 4); [left; assumption|]. intros [|[? ?]]; [lia|]. right. split; [lia|assumption].
Qed.

Lemma ev_inj v vx l l' :
  length v = 4 -> length vx = 6 -> fresh v vx ->
  valid (posl vx) l = true -> valid (posl vx) l' = true -> ev v vx l = ev v vx l' -> l = l'.
Proof.
  intros Hv Hx F V V' E. apply valid_cases in V, V'. unfold ev in E.
  assert (X : forall i e, i < 4 -> 4 <= e < 10 -> (0 < nth (e - 4) vx 0)%Z -> nth i v 0%Z = nth (e - 4) vx 0%Z -> False).
  { intros i e Hi He Hp Heq. eapply (NoDup_app_x _ _ (nth i v 0%Z) F); [apply nth_In; lia|].
    rewrite Heq. apply filter_In. split; [apply nth_In; lia | apply Z.ltb_lt; exact Hp]. }
  destruct (Nat.ltb_spec l 4), (Nat.ltb_spec l' 4).
  - apply (proj1 (NoDup_nth v 0%Z) (fresh_nodup _ _ F)); [lia | lia | exact E].
  - exfalso. destruct V' as [|[? ?]]; [lia|]. eapply X; eauto.
  - exfalso. destruct V as [|[? ?]]; [lia|]. symmetry in E. eapply (X l' l); eauto.
  - destruct V as [|[? ?]]; [lia|]. destruct V' as [|[? ?]]; [lia|].
    assert (l - 4 = l' - 4); [|lia].
    apply (filter_nodup_nth (fun x => (0 <? x)%Z) 0%Z vx (NoDup_app_r _ _ F));
      [lia | lia | apply Z.ltb_lt; assumption | exact E].
Qed.

(** Vertices that lie on face [f] of the parent: its vertices, and the new
    vertices of its edges. *)
Definition on_face (v vx : list Z) (f : nat) (x : Z) : bool :=
  existsb (fun i => negb (i =? f) && (nth i v 0 =? x)%Z) l4 ||
  existsb (fun e => let '(a, b) := iare e in
             negb (a =? f) && negb (b =? f) && (0 <? nth e vx 0)%Z && (nth e vx 0 =? x)%Z) l6.
(** Vertices that lie on edge [e]. *)
Definition on_edge (v vx : list Z) (e : nat) (x : Z) : bool :=
  let '(a, b) := iare e in
  (nth a v 0 =? x)%Z || (nth b v 0 =? x)%Z || ((0 <? nth e vx 0)%Z && (nth e vx 0 =? x)%Z).

Lemma l4_in i : In i l4 <-> i < 4.
Proof. unfold l4; cbn [In]; lia. Qed.
Lemma l6_in i : In i l6 <-> i < 6.
Proof. unfold l6; cbn [In]; lia. Qed.

Lemma on_face_lab v vx f l :
  length v = 4 -> length vx = 6 -> fresh v vx -> valid (posl vx) l = true ->
  on_face v vx f (ev v vx l) = lface f l.
Proof.
  intros Hv Hx F V. apply eq_iff_eq_true. split.
  - intros H. apply orb_true_iff in H. destruct H as [H|H]; apply existsb_exists in H; destruct H as [i [Hi H]].
    + apply l4_in in Hi. apply andb_true_iff in H. destruct H as [H1 H2]. apply Z.eqb_eq in H2.
      assert (l = i); [|subst].
      { eapply ev_inj with (v := v) (vx := vx); try eassumption.
        - unfold valid. destruct (Nat.ltb_spec i 4); [reflexivity | lia].
        - rewrite <- H2. unfold ev. destruct (Nat.ltb_spec i 4); [reflexivity | lia]. }
      unfold lface, supp. destruct (Nat.ltb_spec i 4); [|lia]. cbn.
      rewrite orb_false_r, Nat.eqb_sym. exact H1.
    + apply l6_in in Hi. destruct (iare i) as [a b] eqn:Ei.
      rewrite !andb_true_iff in H. destruct H as [[[H1 H2] H3] H4]. apply Z.eqb_eq in H4.
      assert (l = 4 + i); [|subst].
      { eapply ev_inj with (v := v) (vx := vx); try eassumption.
        - unfold valid. destruct (Nat.ltb_spec (4 + i) 4); [lia|].
          destruct (Nat.ltb_spec (4 + i) 10); [|lia]. replace (4 + i - 4) with i by lia.
          rewrite nth_posl, H3. reflexivity.
        - rewrite <- H4. unfold ev. destruct (Nat.ltb_spec (4 + i) 4); [lia|].
          replace (4 + i - 4) with i by lia. reflexivity. }
      unfold lface, supp. destruct (Nat.ltb_spec (4 + i) 4); [lia|]. replace (4 + i - 4) with i by lia.
      rewrite Ei. cbn. rewrite orb_false_r, negb_orb, (Nat.eqb_sym f a), (Nat.eqb_sym f b), H1, H2. reflexivity.
  - intros H. unfold on_face. apply orb_true_iff. apply valid_cases in V. unfold lface, supp, ev in *.
    destruct (Nat.ltb_spec l 4).
    + left. apply existsb_exists. exists l. split; [apply l4_in; lia|].
      cbn in H. rewrite orb_false_r, Nat.eqb_sym in H. rewrite H, Z.eqb_refl. reflexivity.
    + destruct V as [|[V1 V2]]; [lia|]. right. apply existsb_exists. exists (l - 4). split; [apply l6_in; lia|].
      destruct (iare (l - 4)) as [a b]. cbn in H. rewrite orb_false_r, negb_orb, andb_true_iff in H.
      rewrite (Nat.eqb_sym f a), (Nat.eqb_sym f b) in H. destruct H as [-> ->].
      apply Z.ltb_lt in V2. rewrite V2, Z.eqb_refl. reflexivity.
Qed.

Lemma iare_lt e : e < 6 -> fst (iare e) < 4 /\ snd (iare e) < 4.
Proof. intros H. do 6 (destruct e as [|e]; [cbn; lia|]). lia. Qed.

Lemma ev_edge v vx e : ev v vx (4 + e) = nth e vx 0%Z.
Proof. unfold ev. destruct (Nat.ltb_spec (4 + e) 4); [lia|]. f_equal. lia. Qed.
Lemma ev_vert v vx i : i < 4 -> ev v vx i = nth i v 0%Z.
Proof. intros H. unfold ev. destruct (Nat.ltb_spec i 4); [reflexivity|lia]. Qed.
Lemma valid_vert pos i : i < 4 -> valid pos i = true.
Proof. intros H. unfold valid. destruct (Nat.ltb_spec i 4); [reflexivity|lia]. Qed.
Lemma valid_new vx e : e < 6 -> valid (posl vx) (4 + e) = (0 <? nth e vx 0)%Z.
Proof.
  intros H. unfold valid. destruct (Nat.ltb_spec (4 + e) 4); [lia|].
  destruct (Nat.ltb_spec (4 + e) 10); [|lia]. replace (4 + e - 4) with e by lia.
  rewrite nth_posl. reflexivity.
Qed.

Lemma on_edge_lab v vx e l :
  length v = 4 -> length vx = 6 -> fresh v vx -> valid (posl vx) l = true -> e < 6 ->
  on_edge v vx e (ev v vx l) = ledge e l.
Proof.
  intros Hv Hx F V He. pose proof (iare_lt e He) as [Ha Hb]. unfold on_edge. destruct (iare e) as [a b] eqn:Ee.
  cbn [fst snd] in *.
  assert (LE : ledge e l = (l =? a) || (l =? b) || (l =? 4 + e)).
  { apply valid_cases in V. clear - V He Ee.
    assert (Hl : l < 10) by lia. clear V.
    do 6 (destruct e as [|e]; [injection Ee as <- <-; do 10 (destruct l as [|l]; [reflexivity|]); lia|]). lia. }
  rewrite LE.
  assert (EQ : forall l', valid (posl vx) l' = true -> (ev v vx l' =? ev v vx l)%Z = (l =? l')).
  { intros l' V'. apply eq_iff_eq_true. rewrite Z.eqb_eq, Nat.eqb_eq. split; [|intros ->; reflexivity].
    intros E. eapply ev_inj with (v := v) (vx := vx); try eassumption. symmetry; exact E. }
  rewrite <- (ev_vert v vx a), <- (ev_vert v vx b) by assumption.
  rewrite !EQ by (apply valid_vert; assumption). f_equal.
  destruct (Z.ltb_spec 0%Z (nth e vx 0%Z)) as [Hp|Hp].
  - cbn [andb]. rewrite <- (ev_edge v vx e). apply EQ. rewrite valid_new by exact He. apply Z.ltb_lt. exact Hp.
  - cbn [andb]. symmetry. apply Nat.eqb_neq. intros ->. rewrite valid_new in V by exact He.
    apply Z.ltb_lt in V. lia.
Qed.

(** ** Lifting *)

Lemma shape_of vx v L s :
  length vx = 6 -> length v = 4 -> NoDup v -> ssplit (posl vx) (ltab v) = Ret L -> In s L ->
  length (sv s) = 4 /\ Forall (fun l => valid (posl vx) l = true) (sv s) /\
  length (sref s) = 4 /\ length (sftag s) = 4 /\ length (sori s) = 4 /\ length (stag s) = 6 /\ length (sedg s) = 6.
Proof.
  intros Hx Hv N E Hs. pose proof (all_cases_ok _ vx v shape_all Hx Hv N) as H.
  unfold chk_shape in H. rewrite E in H. cbn [on_ret] in H. rewrite forallb_forall in H. specialize (H s Hs).
  cbv beta in H. rewrite !andb_true_iff, !Nat.eqb_eq in H.
  destruct H as [[[[[[H1 H2] H3] H4] H5] H6] H7]. rewrite forallb_forall in H2.
  repeat split; try assumption. apply Forall_forall. exact H2.
Qed.

Lemma split_total vx v : length vx = 6 -> length v = 4 -> NoDup v -> exists L, ssplit (posl vx) (ltab v) = Ret L.
Proof.
  intros Hx Hv N. pose proof (all_cases_ok _ vx v shape_all Hx Hv N) as H. unfold chk_shape, on_ret in H.
  destruct (ssplit (posl vx) (ltab v)) as [L|]; [exists L; reflexivity | discriminate].
Qed.

Lemma lface_of_map A B (f : A -> B) d d' s i : length s = 4 -> lface_of d' (map f s) i = map f (lface_of d s i).
Proof.
  intros H. apply len4 in H. destruct H as (a & b & c & e & ->). unfold lface_of.
  rewrite map_map. destruct i as [|[|[|[|[|i]]]]]; reflexivity.
Qed.

Lemma all_faces_map A B (f : A -> B) d d' L :
  Forall (fun s => length s = 4) L -> all_faces d' (map (map f) L) = map (map f) (all_faces d L).
Proof.
  induction 1 as [|s L Hs HL IH]; cbn [map all_faces flat_map]; [reflexivity|].
  rewrite map_app. f_equal; [|exact IH]. unfold faces_of. rewrite map_map. apply map_ext.
  intros i. apply lface_of_map. exact Hs.
Qed.

Lemma faces_valid vx L :
  Forall (fun s => length s = 4 /\ Forall (fun l => valid (posl vx) l = true) s) L ->
  Forall (fun t => Forall (fun l => valid (posl vx) l = true) t) (all_faces 10 L).
Proof.
  intros H. apply Forall_forall. intros t Ht. unfold all_faces in Ht. apply in_flat_map in Ht.
  destruct Ht as [s [Hs Ht]]. rewrite Forall_forall in H. destruct (H s Hs) as [Hl Hf].
  apply in_map_iff in Ht. destruct Ht as [i [<- Hi]]. apply Forall_forall. intros l Hl'.
  unfold lface_of in Hl'. apply in_map_iff in Hl'. destruct Hl' as [k [<- Hk]].
  rewrite Forall_forall in Hf. apply Hf. apply nth_In. rewrite Hl.
  apply l4_in in Hi. do 4 (destruct i as [|i]; [cbn in Hk; lia|]). lia.
Qed.

Lemma forallb_map_ext A B (f : A -> B) (P : B -> bool) (Q : A -> bool) l :
  Forall (fun x => P (f x) = Q x) l -> forallb P (map f l) = forallb Q l.
Proof. induction 1; cbn; [reflexivity | congruence]. Qed.

Lemma filter_map_ext A B (f : A -> B) (P : B -> bool) (Q : A -> bool) l :
  Forall (fun x => P (f x) = Q x) l -> filter P (map f l) = map f (filter Q l).
Proof. induction 1 as [|x l Hx Hl IH]; cbn; [reflexivity|]. rewrite Hx. destruct (Q x); cbn; rewrite IH; reflexivity. Qed.

Lemma ltab_nth v a b : a < length v -> b < length v -> ltt (ltab v) a b = (nth a v 0 <? nth b v 0)%Z.
Proof.
  intros Ha Hb. unfold ltt, ltab.
  rewrite (nth_indep _ [] (map (fun b => (0 <? b)%Z) v)) by (rewrite map_length; exact Ha).
  rewrite (map_nth (fun a => map (fun b => (a <? b)%Z) v) v 0%Z).
  rewrite (nth_indep _ false ((fun b => (nth a v 0 <? b)%Z) 0%Z)) by (rewrite map_length; exact Hb).
  rewrite (map_nth (fun b => (nth a v 0 <? b)%Z) v 0%Z). reflexivity.
Qed.

(** ** Completeness of [permb], positions of equal faces *)

Lemma permb_complete a : forall b, Permutation a b -> permb a b = true.
Proof.
  induction a as [|x a IH]; intros b P; cbn.
  - apply Permutation_nil in P. subst. reflexivity.
  - assert (Hin : In x b) by (eapply Permutation_in; [exact P | left; reflexivity]).
    assert (E : exists b', rem1 x b = Some b').
    { clear - Hin. induction b as [|y b IHb]; [destruct Hin|]. cbn. destruct (Nat.eqb_spec x y); [eauto|].
      destruct Hin as [->|Hin]; [congruence|]. destruct (IHb Hin) as [b' ->]. eauto. }
    destruct E as [b' E]. rewrite E. apply IH. apply rem1_ok in E.
    eapply Permutation_cons_inv. rewrite P. exact E.
Qed.

Lemma perm_map_inv {A B} (f : A -> B) (V : A -> Prop) t : forall u,
  (forall x y, V x -> V y -> f x = f y -> x = y) -> Forall V t -> Forall V u ->
  Permutation (map f t) (map f u) -> Permutation t u.
Proof.
  induction t as [|x t IH]; intros u I Ht Hu P; cbn in P.
  - apply Permutation_nil in P. destruct u; [constructor | discriminate].
  - inversion Ht as [|? ? Vx Vt]; subst.
    assert (Hin : In (f x) (map f u)) by (eapply Permutation_in; [exact P | left; reflexivity]).
    apply in_map_iff in Hin. destruct Hin as [y [E Hy]].
    assert (y = x) by (apply I; [rewrite Forall_forall in Hu; auto | exact Vx | exact E]). subst y.
    apply in_split in Hy. destruct Hy as [u1 [u2 ->]].
    rewrite map_app in P. cbn in P. apply Permutation_cons_app_inv in P. rewrite <- map_app in P.
    apply Forall_app in Hu. destruct Hu as [H1 H2]. inversion H2; subst.
    apply Permutation_cons_app. apply IH; auto. apply Forall_app. auto.
Qed.

Definition chk_pos (pos : list bool) (T : list (list bool)) : bool :=
  on_ret (ssplit pos T) (fun L =>
    let F := all_faces 10 (map sv L) in
    let ix := seq 0 (length F) in
    forallb (fun i => let t := nth i F [] in
      length (filter (fun j => permb t (nth j F [])) ix) =?
      (if existsb (fun f => forallb (lface f) t) l4 then 1 else 2)) ix).
Lemma pos_all : all_cases chk_pos = true.
Proof. vm_compute. reflexivity. Qed.

(** ** The triangles of a face on C values *)

(** The vertices of a face, each with the new vertex of the opposite edge
    (not positive if there is none). *)
Definition fdata (v vx : list Z) (f : nat) : list (Z * Z) :=
  map (fun i => (nth (nth i (idir f) 0) v 0%Z, nth (eopp f i) vx 0%Z)) [0; 1; 2].
Definition fval (d : list (Z * Z)) (l : nat) : Z :=
  if l <? 3 then fst (nth l d (0, 0)%Z) else snd (nth (l - 3) d (0, 0)%Z).
Definition face_tris (d : list (Z * Z)) : list (list Z) :=
  map (map (fval d))
      (tri_spec (map (fun x => (0 <? snd x)%Z) d) (fun a b => (fval d a <? fval d b)%Z)).

Lemma tri_spec_ext m lt lt' :
  lt 0 1 = lt' 0 1 -> lt 1 2 = lt' 1 2 -> lt 2 0 = lt' 2 0 -> tri_spec m lt = tri_spec m lt'.
Proof.
  intros H1 H2 H3. destruct m as [|[] [|[] [|[] [|]]]]; cbn; try reflexivity; rewrite ?H1, ?H2, ?H3; reflexivity.
Qed.
Lemma tri_spec_lt m lt : Forall (Forall (fun l => l < 6)) (tri_spec m lt).
Proof.
  destruct m as [|[] [|[] [|[] [|]]]]; cbn; try (destruct (lt _ _)); repeat constructor.
Qed.
Lemma tris_ext {A} (f g : nat -> A) L :
  (forall l, l < 6 -> f l = g l) -> Forall (Forall (fun l => l < 6)) L -> map (map f) L = map (map g) L.
Proof.
  intros H F. apply map_ext_in. intros t Ht. apply map_ext_in. intros l Hl.
  rewrite Forall_forall in F. specialize (F t Ht). rewrite Forall_forall in F. apply H. auto.
Qed.

Lemma perm3 {A} (a b c : A) l : Permutation [a; b; c] l ->
  l = [a; b; c] \/ l = [a; c; b] \/ l = [b; a; c] \/ l = [b; c; a] \/ l = [c; a; b] \/ l = [c; b; a].
Proof.
  intros P. assert (Hl : length l = 3) by (apply Permutation_length in P; cbn in P; lia).
  destruct l as [|x [|y [|z [|]]]]; try discriminate. clear Hl.
  assert (Ha : In x [a; b; c]) by (eapply Permutation_in; [symmetry; exact P | left; reflexivity]).
  destruct Ha as [->|[->|[->|[]]]].
  - apply Permutation_cons_inv in P. apply Permutation_length_2_inv in P. destruct P as [E|E]; inversion E; auto.
  - assert (P' : Permutation [x; a; c] [x; y; z]) by (rewrite <- P; apply perm_swap).
    apply Permutation_cons_inv in P'. apply Permutation_length_2_inv in P'. destruct P' as [E|E]; inversion E; auto 10.
  - assert (P' : Permutation [x; a; b] [x; y; z]).
    { rewrite <- P. apply perm_trans with [a; x; b]; [apply perm_swap | constructor; apply perm_swap]. }
    apply Permutation_cons_inv in P'. apply Permutation_length_2_inv in P'. destruct P' as [E|E]; inversion E; auto 10.
Qed.

Lemma orders3_all a b c : NoDup [a; b; c] -> exists r, In r orders3 /\ ltab r = ltab [a; b; c].
Proof.
  intros N. inversion N as [|? ? N1 N2]; subst. inversion N2 as [|? ? N3 N4]; subst. cbn [In] in *.
  assert (Hab : a <> b) by (intros ->; tauto). assert (Hac : a <> c) by (intros ->; tauto).
  assert (Hbc : b <> c) by (intros ->; tauto). clear N N1 N2 N3 N4.
  assert (T : forall x y : Z, x <> y -> ((x <? y)%Z = true /\ (y <? x)%Z = false) /\ (x < y)%Z \/
                                   ((x <? y)%Z = false /\ (y <? x)%Z = true) /\ (y < x)%Z).
  { intros x y Hn. destruct (Z.ltb_spec x y), (Z.ltb_spec y x); try lia; auto. }
  unfold ltab. cbn [map]. rewrite !Z.ltb_irrefl.
  destruct (T a b Hab) as [ [ [-> ->] ?] | [ [-> ->] ?] ];
  destruct (T a c Hac) as [ [ [-> ->] ?] | [ [-> ->] ?] ];
  destruct (T b c Hbc) as [ [ [-> ->] ?] | [ [-> ->] ?] ]; try (exfalso; clear T; lia);
  [ exists [0; 1; 2]%Z | exists [0; 2; 1]%Z | exists [1; 2; 0]%Z | exists [1; 0; 2]%Z | exists [2; 0; 1]%Z | exists [2; 1; 0]%Z ];
  (split; [vm_compute; repeat (first [left; reflexivity | right]) | reflexivity]).
Qed.

Lemma face_tris_perm d d' :
  length d = 3 -> NoDup (map fst d) -> Permutation d d' -> same_tris (face_tris d) (face_tris d').
Proof.
  intros Hl N P. destruct d as [|[a x] [|[b y] [|[c z] [|]]]]; try discriminate. clear Hl.
  cbn [map fst] in N. destruct (orders3_all a b c N) as [r [Hr Er]].
  set (m := [(0 <? x)%Z; (0 <? y)%Z; (0 <? z)%Z]).
  assert (Hm : In m (bools 3)) by (apply bools_all; reflexivity).
  set (d := [(a, x); (b, y); (c, z)]).
  assert (K : forall s, In s perms3 ->
     same_tris (map (map (fval d)) (map (map (prm s))
        (tri_spec (map (fun i => nth (prm s i) m false) [0; 1; 2]) (fun a b => ltt (ltab r) (prm s a) (prm s b)))))
       (face_tris d)).
  { intros s Hs. pose proof spec_inv as I. rewrite forallb_forall in I. specialize (I s Hs). cbv beta in I.
    rewrite forallb_forall in I. specialize (I m Hm). cbv beta in I. rewrite forallb_forall in I.
    specialize (I r Hr). cbv beta in I. apply sameb_ok in I.
    apply (same_map (fval d)) in I. eapply same_trans; [exact I|].
    unfold face_tris. match goal with |- same_tris ?A ?B => replace B with A; [apply same_refl|] end.
    f_equal. rewrite Er. apply tri_spec_ext; reflexivity. }
  assert (G : forall s, In s perms3 -> d' = map (fun i => nth i d (0, 0)%Z) s -> same_tris (face_tris d) (face_tris d')).
  { intros s Hs ->. apply same_sym. specialize (K s Hs).
    match type of K with same_tris ?A _ => match goal with |- same_tris ?B _ => replace B with A; [exact K|] end end.
    unfold face_tris. rewrite Er.
    match goal with |- _ = map _ (tri_spec ?mm ?ll) =>
      match goal with |- map _ (map _ (tri_spec ?m1 ?l1)) = _ =>
        replace (tri_spec mm ll) with (tri_spec m1 l1) end end.
    - rewrite map_map. etransitivity; [apply map_ext; intros t; apply map_map|].
      apply (tris_ext (fun l => fval d (prm s l))); [|apply tri_spec_lt].
      intros l Hl. clear - Hs Hl.
      do 6 (destruct Hs as [<-|Hs]; [do 6 (destruct l as [|l]; [reflexivity|]); lia|]). destruct Hs.
    - do 6 (destruct Hs as [<-|Hs]; [apply tri_spec_ext; reflexivity|]). destruct Hs. }
  apply perm3 in P.
  destruct P as [P|[P|[P|[P|[P|P]]]]]; symmetry in P; symmetry in P.
  - apply (G [0; 1; 2]); [cbn; tauto | exact P].
  - apply (G [0; 2; 1]); [cbn; tauto | exact P].
  - apply (G [1; 0; 2]); [cbn; tauto | exact P].
  - apply (G [1; 2; 0]); [cbn; tauto | exact P].
  - apply (G [2; 0; 1]); [cbn; tauto | exact P].
  - apply (G [2; 1; 0]); [cbn; tauto | exact P].
Qed.
