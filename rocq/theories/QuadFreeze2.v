(** Step 2 of [MMG2D_setadj] (/repo/src/mmg2d/analys_2d.c:221-259): the edges between
    the quadrilaterals and the triangles are frozen.

    The marks of the sides of the quadrilaterals and of the triangles and those
    of the vertices are arrays.  Not modelled: the assertion on the references
    of the edges (analys_2d.c:246). *)
From Coq Require Import ZArith List Bool Lia.
From Verif Require Import CBase SurfModel Tria2 Quad2 QuadPack2 Setadj2.
Import ListNotations.
Open Scope Z_scope.

(** analys_2d.c:240-245, 252-257. *)
Definition mark (y : Z) : Z := if tst y G_REQ then y else Z.lor y (G_REQ + G_NOSURF + G_BDY).
Definition markw (w : arr Z) (c : Z) : outcome (arr Z) := y <- rd w c ;; wr w c (mark y).

Section Freeze.
Variables (nq : Z) (a : arr quad) (adj : arr Z).

(** State: marks of the edges of the triangles, of the sides of the
    quadrilaterals, of the vertices. *)
Definition freeze_quads (tg qt pt : arr Z) : outcome (arr Z * arr Z * arr Z) :=
  for_range 1 nq (fun k st =>
    q <- rd a k ;;
    if 0 <? q_v q 0 then
      for_range 0 3 (fun i st =>
        let '(tg, qt, pt) := st in
        x <- rd adj (qcell k i) ;;
        if 0 <=? x then Ret (tg, qt, pt)
        else
          let kk := Z.abs x in
          tg <- markw tg (cell (Z.quot kk 3) (Z.rem kk 3)) ;;
          qt <- markw qt (qcell k i) ;;
          pt <- markw pt (q_v q (qa i)) ;;
          pt <- markw pt (q_v q (qb i)) ;;
          Ret (tg, qt, pt)) st
    else Ret st) (tg, qt, pt).

(** ** Correctness *)

Lemma mark_mark y : mark (mark y) = mark y.
Proof.
  clear. unfold mark. destruct (tst y G_REQ) eqn:E; [rewrite E; reflexivity|].
  assert (tst (Z.lor y (G_REQ + G_NOSURF + G_BDY)) G_REQ = true) as ->; [|reflexivity].
  unfold tst. rewrite Z.land_lor_distr_l. change (Z.land (G_REQ + G_NOSURF + G_BDY) G_REQ) with 4.
  destruct (Z.eqb_spec (Z.lor (Z.land y G_REQ) 4) 0) as [X|]; [|reflexivity].
  apply Z.lor_eq_0_iff in X. destruct X. discriminate.
Qed.

(** [w] is [old] with the places [P] marked. *)
Definition okm (P : Z -> Prop) (old w : arr Z) : Prop :=
  alen w = alen old /\ forall c, (aget w c = aget old c \/ aget w c = mark (aget old c)) /\
    (P c -> aget w c = mark (aget old c)) /\ (~ P c -> aget w c = aget old c).

Lemma okm_ext P Q old w : (forall c, P c <-> Q c) -> okm P old w -> okm Q old w.
Proof.
  clear. intros H [L G]. split; [exact L|]. intros c. destruct (G c) as (A & B & C). split; [exact A|].
  split; [intros X; apply B, H, X | intros X; apply C; intros Y; apply X, H, Y].
Qed.

Lemma okm_wr P old w c : okm P old w -> 0 <= c < alen old ->
  exists w', markw w c = Ret w' /\ okm (fun x => P x \/ x = c) old w'.
Proof.
  clear. intros [L G] Hc. unfold markw. rewrite rd_ok by lia. cbn [bind]. rewrite wr_ok by lia.
  eexists. split; [reflexivity|]. split; [exact L|]. intros x. cbn [aget]. unfold upd.
  destruct (Z.eqb_spec x c) as [->|N].
  - assert (M : mark (aget w c) = mark (aget old c)).
    { destruct (G c) as ([->|E] & _); [reflexivity | rewrite E; apply mark_mark]. }
    rewrite M. split; [right; reflexivity|]. split; [reflexivity|]. intros X. destruct X. right. reflexivity.
  - destruct (G x) as (A & B & C). split; [exact A|]. split.
    + intros [X|X]; [apply B; exact X | contradiction].
    + intros X. apply C. intros Y. apply X. left. exact Y.
Qed.

(** The side [i] of [k] lies on a triangle. *)
Definition isd (k i : Z) : Prop := 1 <= k <= nq /\ 0 < q_v (aget a k) 0 /\ 0 <= i < 4 /\ aget adj (qcell k i) < 0.
(** The place [c] is the place [g] of such a side before [n]. *)
Definition touch (g : Z -> Z -> Z) (n c : Z) : Prop := exists k i, isd k i /\ qcell k i < n /\ c = g k i.

Definition gt (k i : Z) : Z := cell (Z.quot (- aget adj (qcell k i)) 3) (Z.rem (- aget adj (qcell k i)) 3).
Definition ga (k i : Z) : Z := q_v (aget a k) (qa i).
Definition gb (k i : Z) : Z := q_v (aget a k) (qb i).

Lemma touch_new g k i c : isd k i -> (touch g (qcell k i + 1) c <-> touch g (qcell k i) c \/ c = g k i).
Proof.
  clear. intros D. split.
  - intros (l & j & A & B & C). destruct (Z.eq_dec (qcell l j) (qcell k i)) as [E|N].
    + right. destruct A as (_ & _ & A & _), D as (_ & _ & D & _). unfold qcell in E.
      assert (l = k /\ j = i) as [-> ->] by lia. exact C.
    + left. exists l, j. split; [exact A|]. split; [lia | exact C].
  - intros [(l & j & A & B & C)|E]; [exists l, j; split; [exact A | split; [lia | exact C]] | exists k, i; split; [exact D | split; [lia | exact E]]].
Qed.
Lemma touch_more g n m c : n <= m -> (forall k i, isd k i -> qcell k i < m -> qcell k i < n) -> (touch g m c <-> touch g n c).
Proof.
  clear. intros H0 H. split; intros (l & j & A & B & C); exists l, j; (split; [exact A|]); (split; [|exact C]); [apply H; auto | lia].
Qed.

Variables (tg0 qt0 pt0 : arr Z).
Hypothesis Hnq : 0 <= nq < alen a.
Hypothesis Ha : 4 * nq < alen adj.
Hypothesis Hqt : 4 * nq < alen qt0.
Hypothesis Htg : forall k i, isd k i -> 0 <= gt k i < alen tg0.
Hypothesis Hpt : forall k i, isd k i -> 0 <= ga k i < alen pt0 /\ 0 <= gb k i < alen pt0.

Definition inv (n : Z) (st : arr Z * arr Z * arr Z) : Prop :=
  let '(tg, qt, pt) := st in
  okm (touch gt n) tg0 tg /\ okm (touch qcell n) qt0 qt /\ okm (fun c => touch ga n c \/ touch gb n c) pt0 pt.

Lemma inv_more n m st : n <= m -> (forall k i, isd k i -> qcell k i < m -> qcell k i < n) -> inv n st -> inv m st.
Proof.
  clear. intros H0 H. destruct st as [[tg qt] pt]. intros (A & B & C).
  split; [|split]; [revert A | revert B | revert C]; apply okm_ext; intros c.
  - rewrite (touch_more gt n m c H0 H). tauto.
  - rewrite (touch_more qcell n m c H0 H). tauto.
  - rewrite (touch_more ga n m c H0 H), (touch_more gb n m c H0 H). tauto.
Qed.

Lemma freeze_quads_ok : exists st, freeze_quads tg0 qt0 pt0 = Ret st /\ inv (4 * nq + 1) st.
Proof.
  unfold freeze_quads.
  match goal with |- context [for_range 1 nq ?f ?s] =>
    destruct (@for_range_inv (arr Z * arr Z * arr Z) (fun k st => inv (qcell k 0) st) f 1 nq s) as (st & E & I) end.
  - lia.
  - assert (N : forall g c, ~ touch g (qcell 1 0) c).
    { intros g c (k & i & (A & _ & B & _) & C & _). unfold qcell in C. lia. }
    split; [|split]; (split; [reflexivity|]); intros c; (split; [left; reflexivity|]); (split; [|reflexivity]); intros X.
    + destruct (N _ _ X).
    + destruct (N _ _ X).
    + destruct X as [X|X]; destruct (N _ _ X).
  - intros k st Hk I. rewrite rd_ok by lia. cbn [bind].
    destruct (Z.ltb_spec 0 (q_v (aget a k) 0)) as [L|L].
    + match goal with |- context [for_range 0 3 ?f ?s] =>
        destruct (@for_range_inv (arr Z * arr Z * arr Z) (fun i st => inv (qcell k i) st) f 0 3 s) as (st' & E & I') end.
      * lia.
      * exact I.
      * clear st I. intros i [[tg qt] pt] Hi I.
        assert (Hc : 1 <= qcell k i <= 4 * nq) by (unfold qcell; lia).
        rewrite rd_ok by lia. cbn [bind]. replace (qcell k (i + 1)) with (qcell k i + 1) by (unfold qcell; lia).
        destruct (Z.leb_spec 0 (aget adj (qcell k i))) as [P|P].
        -- eexists. split; [reflexivity|]. revert I. apply inv_more; [lia|].
           intros l j (A1 & A2 & A3 & A4) B. destruct (Z.eq_dec (qcell l j) (qcell k i)) as [Q|Q]; [rewrite Q in A4; lia | lia].
        -- assert (D : isd k i) by (split; [exact Hk | split; [exact L | split; [lia | exact P]]]).
           destruct I as (I1 & I2 & I3). rewrite Z.abs_neq by lia.
           destruct (okm_wr _ _ _ _ I1 (Htg k i D)) as (tg1 & E1 & J1). unfold gt in E1 at 1. rewrite E1. cbn [bind].
           destruct (okm_wr _ _ _ (qcell k i) I2 ltac:(lia)) as (qt1 & E2 & J2). rewrite E2. cbn [bind].
           destruct (Hpt k i D) as [P1 P2].
           destruct (okm_wr _ _ _ _ I3 P1) as (pt1 & E3 & J3). unfold ga in E3 at 1. rewrite E3. cbn [bind].
           destruct (okm_wr _ _ _ _ J3 P2) as (pt2 & E4 & J4). unfold gb in E4 at 1. rewrite E4. cbn [bind].
           eexists. split; [reflexivity|]. split; [|split]; [revert J1 | revert J2 | revert J4]; apply okm_ext; intros c.
           ++ rewrite (touch_new gt k i c D). tauto.
           ++ rewrite (touch_new qcell k i c D). tauto.
           ++ rewrite (touch_new ga k i c D), (touch_new gb k i c D). tauto.
      * rewrite E. exists st'. split; [reflexivity|]. replace (qcell (k + 1) 0) with (qcell k (3 + 1)) by (unfold qcell; lia). exact I'.
    + eexists. split; [reflexivity|]. revert I. apply inv_more; [unfold qcell; lia|].
      intros l j (A1 & A2 & A3 & A4) B. unfold qcell in *. destruct (Z.eq_dec l k) as [->|]; lia.
  - exists st. split; [exact E|]. replace (4 * nq + 1) with (qcell (nq + 1) 0) by (unfold qcell; lia). exact I.
Qed.

End Freeze.
