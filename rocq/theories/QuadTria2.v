(** The quadrilaterals and the triangles of Mmg2d: step 2 of [MMG2D_hashQuad]
    (/repo/src/mmg2d/hash_2d.c:277-322), the sides between a quadrilateral and
    a triangle, and its correctness.

    Simplified: the size of the table ([0.51*nt] and [1.51*nt] rounded,
    hash_2d.c:279) is left open, [0 <= siz <= max].  Not modelled: the failure of
    the first allocation. *)
From Coq Require Import ZArith List Bool Lia.
From Verif Require Import CBase HashModel HashSpec HashInv HashCorrect SurfModel TriHashProofs Tria2 Quad2 Tria2Edges.
Import ListNotations.
Open Scope Z_scope.

(** The edges that belong to one triangle only (hash_2d.c:282-295); [gr e] is
    the growth granted for the edge [e].  The value returned by
    [MMG5_hashEdge] is not looked at. *)
Definition hash_free (siz max nt : Z) (gr : Z -> Z) (a : arr tri) (adja : arr Z) : outcome htab :=
  h <- hashNew siz max ;;
  for_range 1 nt (fun k h =>
    t <- rd a k ;;
    if t_eok t then
      for_range 0 2 (fun i h =>
        x <- rd adja (3 * (k - 1) + 1 + i) ;;
        if negb (x =? 0) then Ret h
        else
          '(_, h) <- hashEdge (gr (3 * k + i)) h (t_v t (pv i)) (t_v t (nx i)) (3 * k + i) ;;
          Ret h) h
    else Ret h) h.

(** The sides of the quadrilaterals without neighbour (hash_2d.c:299-320). *)
Definition seek_free (nq : Z) (a : arr quad) (h : htab) (adjq : arr Z) : outcome (arr Z) :=
  for_range 1 nq (fun k adj =>
    q <- rd a k ;;
    if 0 <? q_v q 0 then
      for_range 0 3 (fun i adj =>
        x <- rd adj (4 * (k - 1) + 1 + i) ;;
        _ <- c_assert (0 <=? x) ;;
        if negb (x =? 0) then Ret adj
        else
          kk <- hashGet h (q_v q (qa i)) (q_v q (qb i)) ;;
          if kk =? 0 then Ret adj else wr adj (4 * (k - 1) + 1 + i) (- kk)) adj
    else Ret adj) adjq.

(** [MMG2D_hashQuad] on a mesh with quadrilaterals and no table. *)
Definition hashQuad (inival siz max nt nq : Z) (gr : Z -> Z) (ta : arr tri) (adja : arr Z) (a : arr quad) : outcome (arr Z) :=
  adjq <- hashq inival nq a ;;
  h <- hash_free siz max nt gr ta adja ;;
  seek_free nq a h adjq.

(** ** Correctness *)

(** A side of a triangle that has no neighbour. *)
Definition free (nt : Z) (a : arr tri) (adja : arr Z) (l j : Z) : Prop :=
  1 <= l <= nt /\ t_v (aget a l) 0 <> 0 /\ 0 <= j < 3 /\ aget adja (3 * (l - 1) + 1 + j) = 0.

(** The table holds a free side for each pair that has one below [n]. *)
Definition frees (nt : Z) (a : arr tri) (adja : arr Z) (n : Z) (M : emap) : Prop :=
  forall x y, match M x y with
  | Some e => exists l j, e = 3 * l + j /\ free nt a adja l j /\
                same_edge (t_v (aget a l) (pv j)) (t_v (aget a l) (nx j)) x y = true
  | None => forall l j, free nt a adja l j -> 3 * l + j < n ->
                same_edge (t_v (aget a l) (pv j)) (t_v (aget a l) (nx j)) x y = false
  end.

Lemma frees_more nt a adja n m M : (forall l j, free nt a adja l j -> 3 * l + j < m -> 3 * l + j < n) ->
  frees nt a adja n M -> frees nt a adja m M.
Proof. intros H F x y. specialize (F x y). destruct (M x y); [exact F|]. intros l j L1 L2. apply F; auto. Qed.

Lemma hash_free_ok siz max nt gr a adja : 0 <= siz <= max -> 0 <= nt < alen a -> 3 * nt < alen adja ->
  (forall e, 1 <= gr e) ->
  (forall k, 1 <= k <= nt -> t_v (aget a k) 0 <> 0 -> forall i, 0 <= i < 3 -> 0 < t_v (aget a k) i) ->
  exists h M, hash_free siz max nt gr a adja = Ret h /\ erep h M /\ frees nt a adja (3 * nt + 3) M.
Proof.
  intros Hs Hn Hl Hg HP. unfold hash_free.
  destruct (new_rep siz max Hs) as (h & E & R & _). rewrite E. cbn [bind].
  match goal with |- context [for_range 1 nt ?f ?s] =>
    destruct (@for_range_inv htab (fun n h => exists M, erep h M /\ frees nt a adja (3 * n) M) f 1 nt s) as (h' & Eo & M & RM & FM) end.
  - lia.
  - exists emap0. split; [exact R|]. intros x y. unfold emap0. intros l j (L1 & _ & L3 & _) H. lia.
  - clear h E R. intros k h Hk (M & R & F). rewrite rd_ok by lia. cbn [bind].
    unfold t_eok. destruct (Z.ltb_spec 0 (t_v (aget a k) 0)) as [Lk|Lk].
    + assert (Nk : t_v (aget a k) 0 <> 0) by lia.
      match goal with |- context [for_range 0 2 ?f ?s] =>
        destruct (@for_range_inv htab (fun i h => exists M, erep h M /\ frees nt a adja (3 * k + i) M) f 0 2 s) as (h' & Eo & M' & RM & FM) end.
      * lia.
      * exists M. split; [exact R|]. replace (3 * k + 0) with (3 * k) by lia. exact F.
      * clear M R F h. intros i h Hi (M & R & F). rewrite rd_ok by lia. cbn [bind].
        destruct (Z.eqb_spec (aget adja (3 * (k - 1) + 1 + i)) 0) as [Z0|Nz]; cbn [negb].
        -- assert (Pp : 0 < t_v (aget a k) (pv i)).
           { apply HP; [exact Hk | exact Nk |]. unfold pv. destruct (i =? 0), (i =? 1); lia. }
           assert (Pn : 0 < t_v (aget a k) (nx i)).
           { apply HP; [exact Hk | exact Nk |]. unfold nx. destruct (i =? 0), (i =? 1); lia. }
           assert (Fk : free nt a adja k i) by (split; [exact Hk | split; [exact Nk | split; [lia | exact Z0]]]).
           assert (U : forall l j, free nt a adja l j -> 3 * l + j < 3 * k + (i + 1) -> (l = k /\ j = i) \/ 3 * l + j < 3 * k + i).
           { intros l j (_ & _ & L3 & _) H. lia. }
           destruct (M (t_v (aget a k) (pv i)) (t_v (aget a k) (nx i))) as [m|] eqn:Em.
           ++ destruct (insert_known h M _ _ (3 * k + i) (gr (3 * k + i)) m R Pp Pn Em) as (h2 & E2 & R2).
              rewrite E2. cbn [bind]. eexists. split; [reflexivity|]. exists M. split; [exact R2|].
              intros x y. pose proof (F x y) as Fx. destruct (M x y) as [m'|] eqn:Ex; [exact Fx|].
              intros l j L1 L2. destruct (U l j L1 L2) as [[-> ->]|L3]; [|apply Fx; auto].
              match goal with |- ?s = false => destruct s eqn:S; [|reflexivity] end.
              rewrite (erep_sym _ _ _ _ _ _ R S) in Em. congruence.
           ++ destruct (insert h M _ _ (3 * k + i) (gr (3 * k + i)) R Pp Pn Em) as (r & h2 & E2 & [[_ Hg0]|[-> R2]]).
              { specialize (Hg (3 * k + i)). lia. }
              rewrite E2. cbn [bind]. eexists. split; [reflexivity|]. eexists. split; [exact R2|].
              intros x y. unfold eput.
              destruct (same_edge (t_v (aget a k) (pv i)) (t_v (aget a k) (nx i)) x y) eqn:S.
              ** exists k, i. auto.
              ** pose proof (F x y) as Fx. destruct (M x y) as [m'|]; [exact Fx|].
                 intros l j L1 L2. destruct (U l j L1 L2) as [[-> ->]|L3]; [exact S | apply Fx; auto].
        -- exists h. split; [reflexivity|]. exists M. split; [exact R|]. revert F. apply frees_more.
           intros l j (_ & _ & L3 & L4) H. destruct (Z.eq_dec (3 * l + j) (3 * k + i)); [|lia].
           assert (l = k /\ j = i) as [-> ->] by lia. contradiction.
      * exists h'. split; [exact Eo|]. exists M'. split; [exact RM|].
        replace (3 * (k + 1)) with (3 * k + (2 + 1)) by lia. exact FM.
    + exists h. split; [reflexivity|]. exists M. split; [exact R|]. revert F. apply frees_more.
      intros l j (L1 & L2 & L3 & _) H. destruct (Z.eq_dec l k) as [->|]; [|lia].
      specialize (HP k Hk L2 0 ltac:(lia)). lia.
  - exists h', M. split; [exact Eo|]. split; [exact RM|]. replace (3 * nt + 3) with (3 * (nt + 1)) by lia. exact FM.
Qed.

(** What the side [i] of the quadrilateral [k] becomes. *)
Definition becomes (M : emap) (a : arr quad) (adj : arr Z) (k i : Z) : Z :=
  if aget adj (4 * (k - 1) + 1 + i) =? 0 then
    match M (q_v (aget a k) (qa i)) (q_v (aget a k) (qb i)) with Some e => - e | None => 0 end
  else aget adj (4 * (k - 1) + 1 + i).

Lemma seek_free_ok nq a h M adj : 0 <= nq < alen a -> 4 * nq < alen adj -> erep h M ->
  (forall k, 1 <= k <= nq -> q_v (aget a k) 0 <> 0 -> forall i, 0 <= i < 4 -> 0 < q_v (aget a k) i) ->
  (forall c, 1 <= c <= 4 * nq -> 0 <= aget adj c) ->
  (forall x y, M x y <> Some 0) ->
  exists b, seek_free nq a h adj = Ret b /\ alen b = alen adj /\
    forall k i, 1 <= k <= nq -> q_v (aget a k) 0 <> 0 -> 0 <= i < 4 -> aget b (4 * (k - 1) + 1 + i) = becomes M a adj k i.
Proof.
  intros Hn Hl R HP H0 HM. unfold seek_free.
  set (J := fun n (b : arr Z) => alen b = alen adj /\ (forall c, n <= c -> aget b c = aget adj c) /\
     forall k i, 1 <= k <= nq -> q_v (aget a k) 0 <> 0 -> 0 <= i < 4 -> 4 * (k - 1) + 1 + i < n ->
       aget b (4 * (k - 1) + 1 + i) = becomes M a adj k i).
  match goal with |- context [for_range 1 nq ?f ?s] =>
    destruct (@for_range_inv (arr Z) (fun n b => J (4 * (n - 1) + 1) b) f 1 nq s) as (b & Eo & Lb & _ & Gb) end.
  - lia.
  - split; [reflexivity|]. split; [reflexivity|]. intros k i Hk _ Hi H. lia.
  - intros k b Hk Jb. rewrite rd_ok by lia. cbn [bind].
    destruct (Z.ltb_spec 0 (q_v (aget a k) 0)) as [Lk|Lk].
    + assert (Nk : q_v (aget a k) 0 <> 0) by lia.
      match goal with |- context [for_range 0 3 ?f ?s] =>
        destruct (@for_range_inv (arr Z) (fun i b => J (4 * (k - 1) + 1 + i) b) f 0 3 s) as (b' & Eo & Jb') end.
      * lia.
      * replace (4 * (k - 1) + 1 + 0) with (4 * (k - 1) + 1) by lia. exact Jb.
      * clear b Jb. intros i b Hi (L & G & D). rewrite rd_ok by lia. cbn [bind].
        assert (Gc : aget b (4 * (k - 1) + 1 + i) = aget adj (4 * (k - 1) + 1 + i)) by (apply G; lia).
        pose proof (H0 (4 * (k - 1) + 1 + i) ltac:(lia)) as Hp. rewrite !Gc.
        destruct (Z.leb_spec 0 (aget adj (4 * (k - 1) + 1 + i))); [|lia]. cbn [c_assert bind].
        assert (Step : forall b', alen b' = alen adj -> (forall c, c <> 4 * (k - 1) + 1 + i -> aget b' c = aget b c) ->
           aget b' (4 * (k - 1) + 1 + i) = becomes M a adj k i -> J (4 * (k - 1) + 1 + (i + 1)) b').
        { intros b' A1 A2 A3. split; [exact A1|]. split.
          - intros c Hc. rewrite A2 by lia. apply G. lia.
          - intros k' i' K1 K2 K3 K4. destruct (Z.eq_dec (4 * (k' - 1) + 1 + i') (4 * (k - 1) + 1 + i)) as [Q|Q].
            + assert (k' = k /\ i' = i) as [-> ->] by lia. exact A3.
            + rewrite A2 by exact Q. apply D; auto. lia. }
        destruct (Z.eqb_spec (aget adj (4 * (k - 1) + 1 + i)) 0) as [Z0|Nz]; cbn [negb].
        -- assert (Pa : 0 < q_v (aget a k) (qa i)).
           { apply HP; [exact Hk | exact Nk |]. unfold qa. destruct (i =? 0), (i =? 1), (i =? 2); lia. }
           assert (Pb : 0 < q_v (aget a k) (qb i)).
           { apply HP; [exact Hk | exact Nk |]. unfold qb. destruct (i =? 0), (i =? 1), (i =? 2); lia. }
           rewrite (lookup h M _ _ R Pa Pb). cbn [bind].
           destruct (M (q_v (aget a k) (qa i)) (q_v (aget a k) (qb i))) as [e|] eqn:Em.
           ++ destruct (Z.eqb_spec e 0) as [->|Ne]; [destruct (HM _ _ Em)|].
              rewrite wr_ok by lia. eexists. split; [reflexivity|]. apply Step; cbn [alen aget].
              ** exact L.
              ** intros c Nc. apply upd_other. exact Nc.
              ** rewrite upd_same. unfold becomes. rewrite Z0, Em. reflexivity.
           ++ cbn [Z.eqb]. eexists. split; [reflexivity|]. apply Step; [exact L | reflexivity |].
              rewrite Gc, Z0. unfold becomes. rewrite Z0, Em. reflexivity.
        -- eexists. split; [reflexivity|]. apply Step; [exact L | reflexivity |].
           rewrite Gc. unfold becomes. destruct (Z.eqb_spec (aget adj (4 * (k - 1) + 1 + i)) 0); [contradiction | reflexivity].
      * exists b'. split; [exact Eo|]. replace (4 * (k + 1 - 1) + 1) with (4 * (k - 1) + 1 + (3 + 1)) by lia. exact Jb'.
    + exists b. split; [reflexivity|]. destruct Jb as (L & G & D). split; [exact L|]. split.
      * intros c Hc. apply G. lia.
      * intros k' i' K1 K2 K3 K4. destruct (Z.eq_dec k' k) as [->|Q]; [|apply D; auto; lia].
        specialize (HP k K1 K2 0 ltac:(lia)). lia.
  - exists b. split; [exact Eo|]. split; [exact Lb|]. intros k i Hk Nk Hi. apply Gb; auto. lia.
Qed.
