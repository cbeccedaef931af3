(** The second reading of a Medit file: what the loader makes of sections whose
    entries have the right form.  Used by [PropsIo]. *)
From Coq Require Import String ZArith List Lia Bool.
From Verif Require Import CBase IoModel.
Import ListNotations.
Open Scope Z_scope.
Open Scope list_scope.

Set Implicit Arguments.

Definition zlen {A} (l : list A) : Z := Z.of_nat (length l).
Definition mem (k : Z) (l : list Z) : bool := existsb (Z.eqb k) l.

Lemma mem_In k l : mem k l = true <-> In k l.
Proof.
  unfold mem. rewrite existsb_exists. split.
  - intros (x & H & E). apply Z.eqb_eq in E. congruence.
  - intros H. exists k. split; [assumption | apply Z.eqb_refl].
Qed.

Lemma mem_cons k i l : mem k (i :: l) = (k =? i) || mem k l.
Proof. reflexivity. Qed.

Lemma mem_app k l r : mem k (l ++ r) = mem k l || mem k r.
Proof. unfold mem. apply existsb_app. Qed.

Lemma tag_on_idem b t : tag_on b (tag_on b t) = tag_on b t.
Proof. unfold tag_on. rewrite <- Z.lor_assoc, Z.lor_diag. reflexivity. Qed.

Lemma tag_off_idem b t : tag_off b (tag_off b t) = tag_off b t.
Proof. unfold tag_off. rewrite <- Z.land_assoc, Z.land_diag. reflexivity. Qed.

Lemma tag_off_on_idem a b t :
  tag_off a (tag_on b (tag_off a (tag_on b t))) = tag_off a (tag_on b t).
Proof.
  unfold tag_off, tag_on. apply Z.bits_inj'. intros n Hn.
  rewrite !Z.land_spec, !Z.lor_spec, !Z.land_spec, !Z.lor_spec.
  destruct (Z.testbit t n), (Z.testbit a n) eqn:Ea, (Z.testbit b n), (Z.testbit (Z.lnot a) n); reflexivity.
Qed.

Section Entries.
Set Default Proof Using "Type".
Variable D : Type.
Notation V3 := (D * D * D)%type.
Notation tok := (tok D).
Notation pt := (pt D).
Notation hdr := (hdr D).

Lemma zs_zlen {A} (l : list A) : zs (zlen l) = map Z.of_nat (seq 1 (length l)).
Proof. unfold zs, zlen. rewrite Nat2Z.id. reflexivity. Qed.

Lemma floop_rows_from A (f : Z -> A * list tok -> res (A * list tok)) (P : nat -> A -> Prop) :
  forall rows j a tl, P j a ->
  (forall i a r t, nth_error rows i = Some r -> P (j + i)%nat a ->
     exists a', f (Z.of_nat (j + i) + 1) (a, r ++ t) = Ok (a', t) /\ P (S (j + i)) a') ->
  exists a', floop f (map Z.of_nat (seq (S j) (length rows))) (a, concat rows ++ tl) = Ok (a', tl)
             /\ P (j + length rows)%nat a'.
Proof.
  induction rows as [|r rows IH]; intros j a tl Pa H.
  - exists a. cbn. rewrite Nat.add_0_r. split; [reflexivity | exact Pa].
  - destruct (H O a r (concat rows ++ tl) eq_refl) as (a1 & E1 & P1).
    { rewrite Nat.add_0_r. exact Pa. }
    rewrite Nat.add_0_r in E1, P1.
    destruct (IH (S j) a1 tl P1) as (a' & E & P').
    { intros i b r' t Hr Pb. destruct (H (S i) b r' t Hr) as (b' & Eb & Pb').
      - rewrite Nat.add_succ_r. exact Pb.
      - rewrite Nat.add_succ_r in Eb, Pb'. exists b'. split; assumption. }
    exists a'. cbn [length seq map concat floop]. rewrite <- app_assoc.
    replace (Z.of_nat (S j)) with (Z.of_nat j + 1) by lia. rewrite E1. cbn [rbind].
    split; [exact E|]. rewrite Nat.add_succ_r. exact P'.
Qed.

Lemma floop_rows A (f : Z -> A * list tok -> res (A * list tok)) (P : nat -> A -> Prop) rows a tl :
  P O a ->
  (forall i a r t, nth_error rows i = Some r -> P i a ->
     exists a', f (Z.of_nat i + 1) (a, r ++ t) = Ok (a', t) /\ P (S i) a') ->
  exists a', floop f (zs (zlen rows)) (a, concat rows ++ tl) = Ok (a', tl) /\ P (length rows) a'.
Proof.
  intros P0 H. rewrite zs_zlen. apply (floop_rows_from f P rows O); [exact P0 | exact H].
Qed.

(** ** Entries *)

Definition prow (x : V3 * Z) : list tok := v3 (fst x) ++ [TI (snd x)].
Definition vrow (x : list Z * Z) : list tok := map TI (fst x) ++ [TI (snd x)].
Definition irow (x : Z * Z) : list tok := [TI (fst x); TI (snd x)].

Lemma rdn_row l t : rdn (length l) (map TI l ++ t) = Ok (l, t : list tok).
Proof.
  induction l as [|z l IH]; [reflexivity|]. cbn. rewrite IH. reflexivity.
Qed.

Lemma rd3_row g (c : V3) t :
  rd3 g (v3 c ++ t) = Ok ((let '(x, y, z) := c in (g x, g y, g z)), t).
Proof. destruct c as [[x y] z]. reflexivity. Qed.

Lemma rd_in A (a : arr A) k : 0 <= k < alen a -> rd a k = Ret (aget a k).
Proof.
  intros H. unfold rd, inb. destruct (Z.leb_spec 0 k); [|lia].
  destruct (Z.ltb_spec k (alen a)); [|lia]. reflexivity.
Qed.

Lemma wr_in A (a : arr A) k x : 0 <= k < alen a -> wr a k x = Ret (mkArr (alen a) (upd (aget a) k x)).
Proof.
  intros H. unfold wr, inb. destruct (Z.leb_spec 0 k); [|lia].
  destruct (Z.ltb_spec k (alen a)); [|lia]. reflexivity.
Qed.

Lemma abs_if r : (if r <? 0 then - r else r) = Z.abs r.
Proof. destruct (Z.ltb_spec r 0); lia. Qed.

Lemma nth_error_lt A (l : list A) i x : nth_error l i = Some x -> (i < length l)%nat.
Proof. intros H. apply nth_error_Some. congruence. Qed.

(** *** Marks *)

Lemma marks_ok A (g : A -> A) (Hg : forall x, g (g x) = g x) lim :
  forall L a tl, (forall i, In i L -> 0 <= i) -> lim < alen a ->
  exists a', marks (zlen L, concat (map (@one D) L) ++ tl) lim g a = Ok a'
  /\ alen a' = alen a
  /\ forall k, aget a' k = if mem k L && (k <=? lim) then g (aget a k) else aget a k.
Proof.
  intros L a tl P Hl. unfold marks. cbn [fst snd]. rewrite zs_zlen.
  generalize 1%nat as j. revert a P Hl.
  induction L as [|i L IH]; intros a P Hl j.
  - exists a. split; [reflexivity|]. split; reflexivity.
  - cbn [length seq map concat floop]. unfold load_mark at 1. unfold one at 1. cbn [app rdI rbind].
    destruct (Z.ltb_spec lim i) as [Hi|Hi].
    + cbn [rbind].
      destruct (IH a) with (j := S j) as (a' & E & L' & V); [intros; apply P; right; assumption|assumption|].
      exists a'. split; [exact E|]. split; [exact L'|]. intros k. rewrite V, mem_cons.
      destruct (Z.eqb_spec k i) as [->|]; [|reflexivity].
      destruct (Z.leb_spec i lim); [lia|]. rewrite !andb_false_r. reflexivity.
    + assert (B : 0 <= i < alen a) by (specialize (P i (or_introl eq_refl)); lia).
      rewrite (rd_in _ B). cbn [lift rbind]. rewrite (wr_in _ _ B). cbn [lift rbind].
      destruct (IH (mkArr (alen a) (upd (aget a) i (g (aget a i))))) with (j := S j)
        as (a' & E & L' & V); [intros; apply P; right; assumption|assumption|].
      exists a'. split; [exact E|]. split; [exact L'|]. intros k. rewrite V, mem_cons. cbn [aget].
      destruct (Z.eqb_spec k i) as [->|Ne].
      * rewrite upd_same. destruct (Z.leb_spec i lim); [|lia]. cbn [orb andb].
        destruct (mem i L); cbn [andb]; [apply Hg | reflexivity].
      * rewrite upd_other by assumption. reflexivity.
Qed.

(** *** Elements *)

Definition newelt (t : nat) (x : list Z * Z) : elt := mkElt (fst x) (Z.abs (snd x)) (repeat 0 t).

Lemma load_elt_ok w (g : elt -> elt) k (a : arr elt) v r t :
  length v = w -> 0 <= k < alen a ->
  load_elt w g k (a, vrow (v, r) ++ t) =
  Ok (mkArr (alen a) (upd (aget a) k (g (mkElt v (Z.abs r) (e_tag (aget a k))))), t).
Proof.
  intros <- B. unfold load_elt, vrow. cbn [fst snd]. rewrite <- app_assoc, rdn_row.
  cbn [rbind app rdI]. rewrite (rd_in _ B). cbn [lift rbind]. rewrite (wr_in _ _ B).
  cbn [lift rbind]. rewrite abs_if. reflexivity.
Qed.

Lemma load_elts w u (g : elt -> elt) l a0 tl :
  (forall x, In x l -> length (fst x) = w) ->
  zlen l < alen a0 \/ l = [] -> (forall k, aget a0 k = elt0 w u) ->
  exists a, floop (load_elt w g) (zs (zlen l)) (a0, concat (map vrow l) ++ tl) = Ok (a, tl)
  /\ alen a = alen a0
  /\ (forall i x, nth_error l i = Some x -> aget a (Z.of_nat i + 1) = g (newelt u x))
  /\ (forall k, k < 1 \/ zlen l < k -> aget a k = elt0 w u).
Proof.
  intros W Hn H0.
  destruct (@floop_rows _ (load_elt w g)
    (fun j a => alen a = alen a0 /\
       (forall i x, (i < j)%nat -> nth_error l i = Some x -> aget a (Z.of_nat i + 1) = g (newelt u x)) /\
       (forall k, k < 1 \/ Z.of_nat j < k -> aget a k = elt0 w u)) (map vrow l) a0 tl)
    as (a & E & L & V & Z0).
  - split; [reflexivity|]. split; [intros; lia|]. intros; apply H0.
  - intros i a r t Hr (L & V & Z0). rewrite nth_error_map in Hr.
    destruct (nth_error l i) as [x|] eqn:Ex; [|discriminate]. injection Hr as <-.
    pose proof (nth_error_lt _ _ Ex) as Hi. unfold zlen in Hn.
    assert (B : 0 <= Z.of_nat i + 1 < alen a).
    { destruct Hn as [Hn | ->]; [lia|]. destruct i; discriminate. }
    destruct x as [v r]. eexists. split.
    + rewrite load_elt_ok; [reflexivity | apply (W (v, r)); eapply nth_error_In; exact Ex | exact B].
    + cbn [alen aget]. split; [exact L|]. split.
      * intros i' x' Hi' Hx'. destruct (Nat.eq_dec i' i) as [->|Ne].
        -- rewrite upd_same. rewrite Ex in Hx'. injection Hx' as <-.
           rewrite (Z0 (Z.of_nat i + 1)) by lia. reflexivity.
        -- rewrite upd_other by lia. apply V; [lia|assumption].
      * intros k Hk. rewrite upd_other by lia. apply Z0. lia.
  - replace (zlen (map vrow l)) with (zlen l) in E by (unfold zlen; rewrite map_length; reflexivity).
    exists a. split; [exact E|]. split; [exact L|]. split.
    + intros i x Hx. apply V; [|exact Hx]. rewrite map_length. exact (nth_error_lt _ _ Hx).
    + intros k Hk. apply Z0. rewrite map_length. exact Hk.
Qed.

Lemma table_get n x k : aget (table n x) k = x.
Proof. unfold table. destruct (n =? 0); reflexivity. Qed.

Lemma table_len A (l : list A) x : zlen l < alen (table (zlen l) x) \/ l = [].
Proof.
  destruct l as [|y l]; [right; reflexivity|left]. unfold table, zlen. cbn [length].
  destruct (Z.eqb_spec (Z.of_nat (S (length l))) 0); [lia|]. cbn. lia.
Qed.

(** The normal given to the vertex [k]: the last one in the list. *)
Definition given (nor : Z -> V3) (k : Z) (l : list (Z * Z)) (acc : V3) : V3 :=
  fold_left (fun acc x => if (fst x =? k) && (0 <? snd x) then nor (snd x) else acc) l acc.

Lemma given_firstn_S nor k l i x acc : nth_error l i = Some x ->
  given nor k (firstn (S i) l) acc =
  if (fst x =? k) && (0 <? snd x) then nor (snd x) else given nor k (firstn i l) acc.
Proof.
  revert i acc. induction l as [|y l IH]; intros [|i] acc H; try discriminate.
  - injection H as ->. reflexivity.
  - cbn in H. change (firstn (S (S i)) (y :: l)) with (y :: firstn (S i) l).
    change (firstn (S i) (y :: l)) with (y :: firstn i l).
    unfold given in *. cbn [fold_left]. apply IH. exact H.
Qed.

Lemma load_nats np nor l p0 tl :
  np < alen p0 ->
  (forall x, In x l -> 0 <= fst x /\ snd x < alen nor) ->
  exists p, floop (load_nat np nor) (zs (zlen l)) (p0, concat (map irow l) ++ tl) = Ok (p, tl)
  /\ alen p = alen p0
  /\ (forall k, k <= np -> aget p k = set_n (given (aget nor) k l (p_n (aget p0 k))) (aget p0 k)).
Proof.
  intros Hn B.
  destruct (@floop_rows _ (load_nat np nor)
    (fun j a => alen a = alen p0 /\
       (forall k, k <= np ->
          aget a k = set_n (given (aget nor) k (firstn j l) (p_n (aget p0 k))) (aget p0 k)))
    (map irow l) p0 tl) as (a & E & L & V).
  - split; [reflexivity|]. intros k Hk. cbn. destruct (aget p0 k). reflexivity.
  - intros i a r t Hr (L & V). rewrite nth_error_map in Hr.
    destruct (nth_error l i) as [[ip idn]|] eqn:Ex; [|discriminate]. injection Hr as <-.
    destruct (B _ (nth_error_In _ _ Ex)) as [B1 B2]. cbn [fst snd] in *.
    unfold load_nat, irow. cbn [app rdI rbind fst snd].
    destruct (Z.ltb_spec 0 idn) as [Hd|Hd]; cbn [andb].
    + destruct (Z.ltb_spec ip (np + 1)) as [Hp|Hp].
      * rewrite (rd_in nor) by lia. cbn [lift rbind]. rewrite rd_in by lia. cbn [lift rbind].
        rewrite wr_in by lia. cbn [lift rbind]. eexists. split; [reflexivity|].
        cbn [alen aget]. split; [exact L|]. intros k Hk.
        rewrite (given_firstn_S _ _ _ _ _ Ex). cbn [fst snd].
        destruct (Z.ltb_spec 0 idn); [|lia].
        destruct (Z.eqb_spec ip k) as [->|Ne]; cbn [andb].
        -- rewrite upd_same, V by exact Hk. destruct (aget p0 k). reflexivity.
        -- rewrite upd_other by congruence. apply V. exact Hk.
      * exists a. split; [reflexivity|]. split; [exact L|]. intros k Hk.
        rewrite (given_firstn_S _ _ _ _ _ Ex). cbn [fst snd].
        destruct (Z.eqb_spec ip k); [lia|]. apply V. exact Hk.
    + exists a. split; [reflexivity|]. split; [exact L|]. intros k Hk.
      rewrite (given_firstn_S _ _ _ _ _ Ex). cbn [fst snd].
      destruct (Z.ltb_spec 0 idn); [lia|]. rewrite andb_false_r. apply V. exact Hk.
  - replace (zlen (map irow l)) with (zlen l) in E by (unfold zlen; rewrite map_length; reflexivity).
    exists a. split; [exact E|]. split; [exact L|]. intros k Hk.
    rewrite V by exact Hk. rewrite map_length, firstn_all. reflexivity.
Qed.

Variable neg : V3 -> V3 -> V3 -> V3 -> bool.

(** *** Tetrahedra and prisms *)

Lemma use_ok l : forall (a : arr pt), (forall v, In v l -> 0 <= v < alen a) ->
  exists a', use l a = Ok a' /\ alen a' = alen a /\
  forall k, aget a' k = if mem k l then set_tag (tag_off MG_NUL) (aget a k) else aget a k.
Proof.
  induction l as [|v l IH]; intros a H.
  - exists a. repeat split.
  - pose proof (H v (or_introl eq_refl)) as B. cbn [use]. rewrite (rd_in _ B). cbn [lift rbind].
    rewrite (wr_in _ _ B). cbn [lift rbind].
    destruct (IH (mkArr (alen a) (upd (aget a) v (set_tag (tag_off MG_NUL) (aget a v)))))
      as (a' & E & L & V).
    { intros v' Hv'. apply H. right. exact Hv'. }
    exists a'. split; [exact E|]. split; [exact L|]. intros k. rewrite V, mem_cons. cbn [aget].
    destruct (Z.eqb_spec k v) as [->|Ne].
    + rewrite upd_same. cbn [orb]. destruct (mem v l); [|reflexivity].
      unfold set_tag. cbn. rewrite tag_off_idem. reflexivity.
    + rewrite upd_other by assumption. reflexivity.
Qed.

(** The vertices of a tetrahedron after the exchange of the last two when the
    volume is negative. *)
Definition turned (p : Z -> pt) (v : list Z) : list Z :=
  match v with
  | [i; j; k; l] => if neg (p_c (p i)) (p_c (p j)) (p_c (p k)) (p_c (p l)) then [i; j; l; k] else v
  | _ => v
  end.

Lemma turned_ext p q v : (forall k, p_c (p k) = p_c (q k)) -> turned p v = turned q v.
Proof.
  intros H. unfold turned. destruct v as [|i [|j [|k [|l [|]]]]]; try reflexivity.
  rewrite !H. reflexivity.
Qed.

Definition verts (l : list (list Z * Z)) : list Z := concat (map fst l).

Lemma verts_firstn_S l i x : nth_error l i = Some x ->
  verts (firstn (S i) l) = verts (firstn i l) ++ fst x.
Proof.
  revert i. induction l as [|y l IH]; intros [|i] H; try discriminate.
  - injection H as ->. unfold verts. cbn. rewrite app_nil_r. reflexivity.
  - cbn in H. specialize (IH _ H). unfold verts in *. cbn [firstn map concat] in *.
    rewrite IH, app_assoc. reflexivity.
Qed.

Lemma mem_unused k l (f : pt -> pt) (Hf : forall p, f (f p) = f p) v p :
  (if mem k v then f (if mem k l then f p else p) else if mem k l then f p else p)
  = if mem k (l ++ v) then f p else p.
Proof. rewrite mem_app. destruct (mem k v), (mem k l); cbn; auto. Qed.

Lemma set_off_idem (p : pt) :
  set_tag (tag_off MG_NUL) (set_tag (tag_off MG_NUL) p) = set_tag (tag_off MG_NUL) p.
Proof. unfold set_tag. cbn. rewrite tag_off_idem. reflexivity. Qed.

Lemma load_tets l p0 n tl :
  (forall x, In x l -> length (fst x) = 4%nat) ->
  (forall v, In v (verts l) -> 0 <= v < alen p0) ->
  zlen l <= n ->
  exists p a, floop (load_tet neg) (zs (zlen l)) (p0, fresh n (elt0 4 1), concat (map vrow l) ++ tl)
              = Ok (p, a, tl)
  /\ alen p = alen p0
  /\ (forall k, aget p k = if mem k (verts l) then set_tag (tag_off MG_NUL) (aget p0 k) else aget p0 k)
  /\ alen a = n + 1
  /\ (forall i x, nth_error l i = Some x ->
        aget a (Z.of_nat i + 1) = mkElt (turned (aget p0) (fst x)) (Z.abs (snd x)) [0]).
Proof.
  intros W B Hn.
  destruct (@floop_rows _ (load_tet neg)
    (fun j s => alen (fst s) = alen p0 /\
       (forall k, aget (fst s) k = if mem k (verts (firstn j l))
                                   then set_tag (tag_off MG_NUL) (aget p0 k) else aget p0 k) /\
       alen (snd s) = n + 1 /\
       (forall i x, (i < j)%nat -> nth_error l i = Some x ->
          aget (snd s) (Z.of_nat i + 1) = mkElt (turned (aget p0) (fst x)) (Z.abs (snd x)) [0]) /\
       (forall k, Z.of_nat j < k -> aget (snd s) k = elt0 4 1))
    (map vrow l) (p0, fresh n (elt0 4 1)) tl)
    as ([p a] & E & Lp & Vp & La & V & _).
  - cbn [fst snd]. split; [reflexivity|]. split; [reflexivity|]. split; [reflexivity|].
    split; [intros; lia|]. reflexivity.
  - intros i [p a] r t Hr (Lp & Vp & La & V & Z0). cbn [fst snd] in *. rewrite nth_error_map in Hr.
    destruct (nth_error l i) as [[v r0]|] eqn:Ex; [|discriminate]. injection Hr as <-.
    pose proof (nth_error_lt _ _ Ex) as Hi. unfold zlen in Hn.
    pose proof (nth_error_In _ _ Ex) as Hx. pose proof (W _ Hx) as Wx. cbn [fst] in Wx.
    assert (Bk : 0 <= Z.of_nat i + 1 < alen a) by lia.
    assert (Bv : forall z, In z v -> 0 <= z < alen p).
    { intros z Hz. rewrite Lp. apply B. unfold verts. apply in_concat. exists v. split; [|exact Hz].
      apply in_map_iff. exists (v, r0). split; [reflexivity | exact Hx]. }
    destruct (use_ok v p Bv) as (p1 & E1 & L1 & V1).
    assert (Hc : forall k, p_c (aget p1 k) = p_c (aget p0 k)).
    { intros k. rewrite V1. destruct (mem k v); cbn; rewrite Vp; destruct (mem k _); reflexivity. }
    exists (p1, mkArr (n + 1) (upd (upd (aget a) (Z.of_nat i + 1) (mkElt v (Z.abs r0) [0])) (Z.of_nat i + 1)
              (mkElt (turned (aget p0) v) (Z.abs r0) [0]))).
    split.
    + unfold load_tet. rewrite (@load_elt_ok 4 _ _ _ _ _ _ Wx Bk). cbn [rbind].
      rewrite rd_in by (cbn [alen]; exact Bk). cbn [lift rbind aget]. rewrite upd_same. cbn [e_v].
      rewrite E1. cbn [rbind].
      assert (EO : orient neg p1 (mkElt v (Z.abs r0) (e_tag (aget a (Z.of_nat i + 1))))
                   = Ok (mkElt (turned (aget p0) v) (Z.abs r0) [0])).
      { rewrite (Z0 (Z.of_nat i + 1)) by lia. unfold orient. cbn [e_v e_tag e_ref elt0 repeat].
        rewrite <- L1 in Bv.
        destruct v as [|a0 [|a1 [|a2 [|a3 [|]]]]]; try discriminate Wx.
        rewrite (rd_in _ (Bv a0 ltac:(cbn; auto))), (rd_in _ (Bv a1 ltac:(cbn; auto))),
          (rd_in _ (Bv a2 ltac:(cbn; auto))), (rd_in _ (Bv a3 ltac:(cbn; auto))).
        cbn [lift rbind]. rewrite !Hc. unfold turned. destruct (neg _ _ _ _); reflexivity. }
      rewrite EO. cbn [rbind]. rewrite wr_in by (cbn [alen]; exact Bk). cbn [lift rbind alen aget].
      rewrite (Z0 (Z.of_nat i + 1)) by lia. rewrite La. reflexivity.
    + cbn [fst snd alen aget]. split; [congruence|]. split.
      * intros k. rewrite V1, Vp, (verts_firstn_S _ _ Ex). cbn [fst].
        apply mem_unused. apply set_off_idem.
      * split; [reflexivity|]. split.
        -- intros i' x' Hi' Hx'. destruct (Nat.eq_dec i' i) as [->|Ne].
           ++ rewrite upd_same. rewrite Ex in Hx'. injection Hx' as <-. reflexivity.
           ++ rewrite !upd_other by lia. apply V; [lia|assumption].
        -- intros k Hk. rewrite !upd_other by lia. apply Z0. lia.
  - replace (zlen (map vrow l)) with (zlen l) in E by (unfold zlen; rewrite map_length; reflexivity).
    cbn [fst snd] in *. exists p, a. split; [exact E|]. split; [exact Lp|]. split.
    { intros k. rewrite Vp, map_length, firstn_all. reflexivity. }
    split; [exact La|]. intros i x Hx.
    apply V; [|exact Hx]. rewrite map_length. exact (nth_error_lt _ _ Hx).
Qed.

Lemma load_pris l p0 a0 tl :
  (forall x, In x l -> length (fst x) = 6%nat) ->
  (forall v, In v (verts l) -> 0 <= v < alen p0) ->
  zlen l < alen a0 \/ l = [] -> (forall k, aget a0 k = elt0 6 0) ->
  exists p a, floop (@load_pri D) (zs (zlen l)) (p0, a0, concat (map vrow l) ++ tl)
              = Ok (p, a, tl)
  /\ alen p = alen p0
  /\ (forall k, aget p k = if mem k (verts l) then set_tag (tag_off MG_NUL) (aget p0 k) else aget p0 k)
  /\ alen a = alen a0
  /\ (forall i x, nth_error l i = Some x -> aget a (Z.of_nat i + 1) = newelt 0 x).
Proof.
  intros W B Hn H0.
  destruct (@floop_rows _ (@load_pri D)
    (fun j s => alen (fst s) = alen p0 /\
       (forall k, aget (fst s) k = if mem k (verts (firstn j l))
                                   then set_tag (tag_off MG_NUL) (aget p0 k) else aget p0 k) /\
       alen (snd s) = alen a0 /\
       (forall i x, (i < j)%nat -> nth_error l i = Some x ->
          aget (snd s) (Z.of_nat i + 1) = newelt 0 x) /\
       (forall k, Z.of_nat j < k -> aget (snd s) k = elt0 6 0))
    (map vrow l) (p0, a0) tl)
    as ([p a] & E & Lp & Vp & La & V & _).
  - cbn [fst snd]. split; [reflexivity|]. split; [reflexivity|]. split; [reflexivity|].
    split; [intros; lia|]. intros; apply H0.
  - intros i [p a] r t Hr (Lp & Vp & La & V & Z0). cbn [fst snd] in *. rewrite nth_error_map in Hr.
    destruct (nth_error l i) as [[v r0]|] eqn:Ex; [|discriminate]. injection Hr as <-.
    pose proof (nth_error_lt _ _ Ex) as Hi. unfold zlen in Hn.
    pose proof (nth_error_In _ _ Ex) as Hx. pose proof (W _ Hx) as Wx. cbn [fst] in Wx.
    assert (Bk : 0 <= Z.of_nat i + 1 < alen a).
    { destruct Hn as [Hn | ->]; [lia|]. destruct i; discriminate. }
    assert (Bv : forall z, In z v -> 0 <= z < alen p).
    { intros z Hz. rewrite Lp. apply B. unfold verts. apply in_concat. exists v. split; [|exact Hz].
      apply in_map_iff. exists (v, r0). split; [reflexivity | exact Hx]. }
    destruct (use_ok v p Bv) as (p1 & E1 & L1 & V1).
    exists (p1, mkArr (alen a0) (upd (aget a) (Z.of_nat i + 1) (newelt 0 (v, r0)))).
    split.
    + unfold load_pri. rewrite (@load_elt_ok 6 _ _ _ _ _ _ Wx Bk). cbn [rbind].
      rewrite rd_in by (cbn [alen]; exact Bk). cbn [lift rbind aget]. rewrite upd_same. cbn [e_v].
      rewrite E1. cbn [rbind]. rewrite (Z0 (Z.of_nat i + 1)) by lia. rewrite La. reflexivity.
    + cbn [fst snd alen aget]. split; [congruence|]. split.
      * intros k. rewrite V1, Vp, (verts_firstn_S _ _ Ex). cbn [fst].
        apply mem_unused. apply set_off_idem.
      * split; [reflexivity|]. split.
        -- intros i' x' Hi' Hx'. destruct (Nat.eq_dec i' i) as [->|Ne].
           ++ rewrite upd_same. rewrite Ex in Hx'. injection Hx' as <-. reflexivity.
           ++ rewrite !upd_other by lia. apply V; [lia|assumption].
        -- intros k Hk. rewrite !upd_other by lia. apply Z0. lia.
  - replace (zlen (map vrow l)) with (zlen l) in E by (unfold zlen; rewrite map_length; reflexivity).
    cbn [fst snd] in *. exists p, a. split; [exact E|]. split; [exact Lp|]. split.
    { intros k. rewrite Vp, map_length, firstn_all. reflexivity. }
    split; [exact La|]. intros i x Hx.
    apply V; [|exact Hx]. rewrite map_length. exact (nth_error_lt _ _ Hx).
Qed.

(** *** Normals *)

End Entries.

Section Doubles.
Variable D : Type.
Notation V3 := (D * D * D)%type.
Notation pt := (pt D).
Variable d0 : D.
Variable fl : D -> D.
Variable unit : V3 -> V3.

(** *** Vertices *)

Definition g3 (g : D -> D) (c : V3) : V3 := let '(x, y, z) := c in (g x, g y, g z).
Definition gver (ver : Z) : D -> D := if ver <? 2 then fl else fun d => d.

Definition newpt (g : D -> D) (x : V3 * Z) : pt :=
  mkPt (g3 g (fst x)) (d0, d0, d0) (Z.abs (snd x)) 0 0 false MG_NUL.

Lemma load_pts ver l n tl : zlen l <= n ->
  exists a, floop (load_pt fl ver) (zs (zlen l)) (fresh n (pt0 d0), concat (map (@prow D) l) ++ tl)
            = Ok (a, tl)
  /\ alen a = n + 1
  /\ (forall i x, nth_error l i = Some x -> aget a (Z.of_nat i + 1) = newpt (gver ver) x)
  /\ (forall k, k < 1 \/ zlen l < k -> aget a k = pt0 d0).
Proof.
  intros Hn.
  destruct (@floop_rows D _ (load_pt fl ver)
    (fun j a => alen a = n + 1 /\
       (forall i x, (i < j)%nat -> nth_error l i = Some x -> aget a (Z.of_nat i + 1) = newpt (gver ver) x) /\
       (forall k, k < 1 \/ Z.of_nat j < k -> aget a k = pt0 d0)) (map (@prow D) l) (fresh n (pt0 d0)) tl)
    as (a & E & L & V & V0).
  - split; [reflexivity|]. split; [intros; lia|]. reflexivity.
  - intros i a r t Hr (L & V & Z0). rewrite nth_error_map in Hr.
    destruct (nth_error l i) as [x|] eqn:Ex; [|discriminate]. injection Hr as <-.
    pose proof (nth_error_lt _ _ Ex) as Hi. unfold zlen in Hn.
    assert (B : 0 <= Z.of_nat i + 1 < alen a) by lia.
    eexists. split.
    + unfold load_pt, prow. rewrite <- app_assoc, rd3_row. cbn [rbind app rdI].
      rewrite (rd_in _ B). cbn [lift rbind]. rewrite (wr_in _ _ B). cbn [lift rbind].
      reflexivity.
    + cbn [alen aget]. split; [exact L|]. split.
      * intros i' x' Hi' Hx'. destruct (Nat.eq_dec i' i) as [->|Ne].
        -- rewrite upd_same. rewrite Ex in Hx'. injection Hx' as <-.
           rewrite (Z0 (Z.of_nat i + 1)) by lia. unfold newpt. rewrite abs_if.
           destruct x as [[[? ?] ?] ?]. reflexivity.
        -- rewrite upd_other by lia. apply V; [lia|assumption].
      * intros k Hk. rewrite upd_other by lia. apply Z0. lia.
  - replace (zlen (map (@prow D) l)) with (zlen l) in E by (unfold zlen; rewrite map_length; reflexivity).
    exists a. split; [exact E|]. split; [exact L|]. split.
    + intros i x Hx. apply V; [|exact Hx]. rewrite map_length. exact (nth_error_lt _ _ Hx).
    + intros k Hk. apply V0. rewrite map_length. exact Hk.
Qed.

Definition gnor (ver : Z) : D -> D := if ver =? 1 then fl else fun d => d.

Lemma load_nors ver l tl :
  exists a, floop (load_nor fl unit ver) (zs (zlen l))
                  (fresh (zlen l) (d0, d0, d0), concat (map (@v3 D) l) ++ tl) = Ok (a, tl)
  /\ alen a = zlen l + 1
  /\ (forall i x, nth_error l i = Some x -> aget a (Z.of_nat i + 1) = unit (g3 (gnor ver) x)).
Proof.
  destruct (@floop_rows D _ (load_nor fl unit ver)
    (fun j a => alen a = zlen l + 1 /\
       (forall i x, (i < j)%nat -> nth_error l i = Some x ->
          aget a (Z.of_nat i + 1) = unit (g3 (gnor ver) x)))
    (map (@v3 D) l) (fresh (zlen l) (d0, d0, d0)) tl) as (a & E & L & V).
  - split; [reflexivity|]. intros; lia.
  - intros i a r t Hr (L & V). rewrite nth_error_map in Hr.
    destruct (nth_error l i) as [x|] eqn:Ex; [|discriminate]. injection Hr as <-.
    pose proof (nth_error_lt _ _ Ex) as Hi. unfold zlen in *.
    assert (B : 0 <= Z.of_nat i + 1 < alen a) by lia.
    eexists. split.
    + unfold load_nor. rewrite rd3_row. cbn [rbind]. rewrite (wr_in _ _ B). cbn [lift rbind].
      reflexivity.
    + cbn [alen aget]. split; [exact L|].
      intros i' x' Hi' Hx'. destruct (Nat.eq_dec i' i) as [->|Ne].
      * rewrite upd_same. rewrite Ex in Hx'. injection Hx' as <-. destruct x as [[? ?] ?]. reflexivity.
      * rewrite upd_other by lia. apply V; [lia|assumption].
  - replace (zlen (map (@v3 D) l)) with (zlen l) in E by (unfold zlen; rewrite map_length; reflexivity).
    exists a. split; [exact E|]. split; [exact L|]. intros i x Hx.
    apply V; [|exact Hx]. rewrite map_length. exact (nth_error_lt _ _ Hx).
Qed.

End Doubles.
