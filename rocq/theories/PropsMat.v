(** C15: inversion of the table of materials.  C30: the tables hold one entry per key. *)
From Coq Require Import ZArith QArith List Lia Bool.
From Coq Require Import ZifyBool ZifyNat.
From Verif Require Import CBase Chain MeshModel PoolModel PackModel BdryProofs MatModel.
Import ListNotations.
Open Scope Z_scope.

(** ** C30 *)

(** The calls of the user.  Every counted allocation succeeds. *)
Inductive op :=
| ONmat (n : Z)                                          (* MMG3D_IPARAM_numberOfMat *)
| OMat (r : mrefs) (ref split rin rex : Z)               (* MMG3D_Set_multiMat *)
| ONbr (n : Z)                                           (* MMG3D_IPARAM_numberOfLSBaseReferences *)
| OBr (br : Z)                                           (* MMG3D_Set_lsBaseReference *)
| ONpar (n : Z) (hmin hmax hausd : Q)                    (* MMG3D_IPARAM_numberOfLocalParam *)
| OPar (typ ref : Z) (hmin hmax hausd : Q).              (* MMG3D_Set_localParameter *)

Definition call (o : op) (s : info) : outcome (Z * info) :=
  match o with
  | ONmat n => Ret (set_nmat n true s)
  | OMat r ref split rin rex => set_mat r true ref split rin rex s
  | ONbr n => Ret (set_nbr n true s)
  | OBr br => set_br br s
  | ONpar n a b c => Ret (set_npar n true a b c s)
  | OPar typ ref a b c => set_par typ ref a b c s
  end.

(** A history: the calls with the values they returned. *)
Fixpoint calls (l : list op) (s : info) : outcome (list (op * Z) * info) :=
  match l with
  | [] => Ret ([], s)
  | o :: l => ' (v, s) <- call o s ;; ' (h, s) <- calls l s ;; Ret ((o, v) :: h, s)
  end.

(** The accepted entries since the table was last announced, oldest first. *)
Fixpoint mats_of (acc : list mat) (h : list (op * Z)) : list mat :=
  match h with
  | [] => acc
  | (ONmat _, _) :: h => mats_of [] h
  | (OMat _ ref split rin rex, v) :: h =>
      mats_of (if v =? 1 then acc ++ [mkM ref split rin rex] else acc) h
  | _ :: h => mats_of acc h
  end.

Fixpoint pars_of (acc : list par) (h : list (op * Z)) : list par :=
  match h with
  | [] => acc
  | (ONpar _ _ _ _, _) :: h => pars_of [] h
  | (OPar typ ref a b c, v) :: h => pars_of (if v =? 1 then acc ++ [mkPar typ ref a b c] else acc) h
  | _ :: h => pars_of acc h
  end.

(** [x] is the last entry of the list for its key. *)
Definition last_for {A K} (key : A -> K) (acc : list A) (x : A) : Prop :=
  exists pre post, acc = pre ++ x :: post /\ forall y, In y post -> key y <> key x.

(** The first [n] cells of [a] are a table of the list [acc]: one cell per key, and
    each holds the last value of its key. *)
Definition table {A K} (key : A -> K) (same : A -> A -> Prop) (a : arr A) (n : Z) (acc : list A) : Prop :=
  (forall i j, 0 <= i < n -> 0 <= j < n -> key (aget a i) = key (aget a j) -> i = j) /\
  (forall x, last_for key acc x -> exists i, 0 <= i < n /\ same (aget a i) x) /\
  (forall i, 0 <= i < n -> exists x, last_for key acc x /\ same (aget a i) x).

(** What is observable of a material: the references of the sides only count when
    it is split. *)
Definition same_mat (m x : mat) : Prop :=
  mref m = mref x /\ mspl m = int8 (mspl x) /\ (mspl x <> 0 -> mrin m = mrin x /\ mrex m = mrex x).
Definition key_par (p : par) : Z * Z := (pelt p, parref p).

Lemma last_for_nil A K (key : A -> K) x : ~ last_for key [] x.
Proof. intros (pre & post & E & _). destruct pre; discriminate. Qed.

Lemma last_for_snoc A K (key : A -> K) acc z x :
  last_for key (acc ++ [z]) x <-> x = z \/ (last_for key acc x /\ key z <> key x).
Proof.
  split.
  - intros (pre & post & E & H). destruct post as [|p post] using rev_ind.
    + apply app_inj_tail in E. left. symmetry. apply E.
    + clear IHpost. right. change (pre ++ x :: post ++ [p]) with (pre ++ (x :: post) ++ [p]) in E.
      rewrite app_assoc in E. apply app_inj_tail in E. destruct E as [E ->]. split.
      * exists pre, post. split; [exact E|]. intros y Hy. apply H. apply in_or_app. left. exact Hy.
      * apply H. apply in_or_app. right. left. reflexivity.
  - intros [->|[(pre & post & E & H) Hz]].
    + exists acc, []. split; [reflexivity|intros y []].
    + exists pre, (post ++ [z]). split; [rewrite E, <- app_assoc; reflexivity|].
      intros y Hy. apply in_app_or in Hy. destruct Hy as [Hy|[<-|[]]]; [apply H; exact Hy|exact Hz].
Qed.

Section Table.
Context {A K : Type} (key : A -> K) (same : A -> A -> Prop).
Hypothesis same_key : forall a b, same a b -> key a = key b.

Lemma table_nil a : table key same a 0 [].
Proof.
  split; [intros; lia|]. split; [|intros; lia].
  intros x H. exfalso. exact (last_for_nil _ _ _ _ H).
Qed.

Lemma table_put a n acc k x x' : table key same a n acc -> 0 <= k < n -> key (aget a k) = key x -> same x' x ->
  table key same (mkArr (alen a) (upd (aget a) k x')) n (acc ++ [x]).
Proof.
  intros (T1 & T2 & T3) Hk Ek Hs. cbn [alen aget].
  assert (KK : forall i, 0 <= i < n -> key (upd (aget a) k x' i) = key (aget a i)).
  { intros i Hi. unfold upd. destruct (Z.eqb_spec i k) as [->|]; [|reflexivity].
    rewrite (same_key _ _ Hs). symmetry. exact Ek. }
  split; [|split]; cbn [aget alen].
  - intros i j Hi Hj E. rewrite !KK in E by assumption. apply T1; assumption.
  - intros y Hy. apply last_for_snoc in Hy. destruct Hy as [->|[Hy Hne]].
    + exists k. rewrite upd_same. auto.
    + destruct (T2 y Hy) as (i & Hi & Si). exists i. split; [exact Hi|].
      rewrite upd_other; [exact Si|]. intros ->. apply Hne. rewrite <- (same_key _ _ Si). symmetry. exact Ek.
  - intros i Hi. destruct (Z.eq_dec i k) as [->|Hik].
    + exists x. rewrite upd_same. split; [apply last_for_snoc; auto|exact Hs].
    + destruct (T3 i Hi) as (y & Hy & Sy). exists y. rewrite upd_other by exact Hik. split; [|exact Sy].
      apply last_for_snoc. right. split; [exact Hy|]. intros E. apply Hik. apply T1; auto.
      rewrite Ek, E. apply same_key. exact Sy.
Qed.

Lemma table_add a n acc x x' : table key same a n acc -> 0 <= n ->
  (forall i, 0 <= i < n -> key (aget a i) <> key x) -> same x' x ->
  table key same (mkArr (alen a) (upd (aget a) n x')) (n + 1) (acc ++ [x]).
Proof.
  intros (T1 & T2 & T3) Hn Nk Hs.
  split; [|split]; cbn [aget alen].
  - intros i j Hi Hj E. unfold upd in E.
    destruct (Z.eqb_spec i n) as [->|], (Z.eqb_spec j n) as [->|]; try reflexivity.
    + exfalso. apply (Nk j); [lia|]. rewrite <- (same_key _ _ Hs). symmetry. exact E.
    + exfalso. apply (Nk i); [lia|]. rewrite <- (same_key _ _ Hs). exact E.
    + apply T1; [lia|lia|exact E].
  - intros y Hy. apply last_for_snoc in Hy. destruct Hy as [->|[Hy Hne]].
    + exists n. rewrite upd_same. split; [lia|exact Hs].
    + destruct (T2 y Hy) as (i & Hi & Si). exists i. split; [lia|]. rewrite upd_other by lia. exact Si.
  - intros i Hi. destruct (Z.eq_dec i n) as [->|Hik].
    + exists x. rewrite upd_same. split; [apply last_for_snoc; auto|exact Hs].
    + destruct (T3 i ltac:(lia)) as (y & Hy & Sy). exists y. rewrite upd_other by exact Hik. split; [|exact Sy].
      apply last_for_snoc. right. split; [exact Hy|]. intros E. apply (Nk i); [lia|].
      rewrite E. apply same_key. exact Sy.
Qed.
End Table.

Lemma find_first_ok A (a : arr A) p n : 0 <= n <= alen a ->
  exists o, find_first a p n = Ret o /\
    match o with
    | Some k => 0 <= k < n /\ p (aget a k) = true
    | None => forall k, 0 <= k < n -> p (aget a k) = false
    end.
Proof.
  intros Hn. unfold find_first.
  destruct (@for_range_inv (option Z) (fun i o =>
    match o with
    | Some k => 0 <= k < n /\ p (aget a k) = true
    | None => forall k, 0 <= k < i -> p (aget a k) = false
    end) (fun k r => match r with Some _ => Ret r | None => x <- rd a k ;; Ret (if p x then Some k else None) end)
    0 (n - 1) None) as (o & E & P); [lia|intros; lia| |].
  - intros i [k|] Hi P; [exists (Some k); auto|].
    rewrite rd_ok by lia. cbn [bind]. eexists. split; [reflexivity|].
    destruct (p (aget a i)) eqn:Ep; [split; [lia|exact Ep]|].
    intros k Hk. destruct (Z.eq_dec k i) as [->|]; [exact Ep|]. apply P. lia.
  - exists o. split; [exact E|]. destruct o; [exact P|]. replace (n - 1 + 1) with n in P by lia. exact P.
Qed.

(** ** Computation of the span of the lookup table *)

Lemma mm_fold l : forall lo hi lo' hi', fold_left mm l (lo, hi) = (lo', hi') ->
  lo' <= lo /\ hi <= hi' /\ (forall r, In r l -> lo' <= r <= hi') /\
  (forall b, b <= lo -> (forall r, In r l -> b <= r) -> b <= lo') /\
  (forall b, hi <= b -> (forall r, In r l -> r <= b) -> hi' <= b).
Proof.
  induction l as [|x l IH]; intros lo hi lo' hi'; cbn [fold_left].
  - intros E. injection E as <- <-. split; [lia|]. split; [lia|]. split; [intros r []|]. split; intros; lia.
  - intros E. apply IH in E. destruct E as (H1 & H2 & H3 & H4 & H5).
    destruct (Z.ltb_spec x lo), (Z.ltb_spec hi x); (split; [lia|]; split; [lia|]; split; [|split]);
      (intros r [<-|Hr]; [lia|apply H3; exact Hr]) || (intros b Hb Hr; (apply H4 || apply H5);
        [pose proof (Hr x (or_introl eq_refl)); lia|intros r Hr'; apply Hr; right; exact Hr']).
Qed.

Definition refs_of (m : mat) : list Z := if mspl m =? 0 then [mref m] else [mref m; mrin m; mrex m].

(** The materials stored in the first [n] cells. *)
Definition stored (a : arr mat) (n : Z) : list mat := map (aget a) (zrange 0 (n - 1)).

Lemma stored_snoc a i : 0 <= i -> stored a (i + 1) = stored a i ++ [aget a i].
Proof.
  intros Hi. unfold stored. replace (i + 1 - 1) with (i - 1 + 1) by lia. rewrite zrange_snoc by lia.
  rewrite map_app. cbn [map]. repeat f_equal. lia.
Qed.

Lemma in_stored a n m : In m (stored a n) <-> exists i, 0 <= i < n /\ aget a i = m.
Proof.
  unfold stored. rewrite in_map_iff. split.
  - intros (i & E & H). apply in_zrange in H. exists i. split; [lia|exact E].
  - intros (i & H & E). exists i. split; [exact E|]. apply in_zrange. lia.
Qed.

Lemma mm_mats a n : 0 <= n <= alen a ->
  for_range 0 (n - 1) (mm_mat a) (INTMAX, 0) =
  Ret (fold_left mm (concat (map refs_of (stored a n))) (INTMAX, 0)).
Proof.
  intros Hn.
  destruct (@for_range_inv (Z * Z) (fun i b => b = fold_left mm (concat (map refs_of (stored a i))) (INTMAX, 0))
    (mm_mat a) 0 (n - 1) (INTMAX, 0)) as (b & E & P); [lia|reflexivity| |].
  - intros i b Hi ->. unfold mm_mat. rewrite rd_ok by lia. cbn [bind].
    rewrite stored_snoc by lia. rewrite !map_app, concat_app, fold_left_app. cbn [map concat].
    remember (fold_left mm (concat (map refs_of (stored a i))) (INTMAX, 0)) as b eqn:Eb. clear Eb.
    unfold refs_of. destruct (mspl (aget a i) =? 0); eexists; (split; [reflexivity|]); reflexivity.
  - rewrite E, P. repeat f_equal. lia.
Qed.

(** References are nonnegative and below the largest integer. *)
Definition ref_ok (r : Z) : Prop := 0 <= r < INTMAX.
Definition mrefs_all (r : mrefs) : list Z := rtet r ++ rtri r ++ redg r.

(** The code stored for the reference [r] of the material [m]. *)
Definition attr (m : mat) (r : Z) : Z :=
  if mspl m =? 0 then 0 else if r =? mrex m then MG_PLUS else if r =? mrin m then MG_MINUS else mspl m.

Definition compat_arr (a : arr mat) (n : Z) : Prop :=
  (forall i j r, 0 <= i < n -> 0 <= j < n -> In r (refs_of (aget a i)) -> In r (refs_of (aget a j)) -> i = j) /\
  (forall i, 0 <= i < n -> mspl (aget a i) <> 0 -> mrin (aget a i) <> mrex (aget a i)).

Lemma inv_put_ok lo look r c : lo <= r < lo + alen look ->
  inv_put lo look r c = Ret (mkArr (alen look) (upd (aget look) (r - lo) c)).
Proof. intros H. unfold inv_put, inv_key. rewrite rd_ok by lia. cbn [bind]. apply wr_ok. lia. Qed.

Lemma inv_set_ok a lo k look : 0 <= k < alen a ->
  (forall r, In r (refs_of (aget a k)) -> lo <= r < lo + alen look) ->
  exists look', inv_set a lo k look = Ret look' /\ alen look' = alen look /\
    (forall r, In r (refs_of (aget a k)) -> aget look' (r - lo) = inv_code k (attr (aget a k) r)) /\
    (forall r, ~ In r (refs_of (aget a k)) -> aget look' (r - lo) = aget look (r - lo)).
Proof.
  intros Hk Hr. unfold inv_set. rewrite rd_ok by lia. cbn [bind].
  unfold refs_of, attr in *. destruct (Z.eqb_spec (mspl (aget a k)) 0) as [E|E].
  - rewrite inv_put_ok by (apply Hr; left; reflexivity). cbn [bind].
    eexists. split; [reflexivity|]. cbn [alen aget]. split; [reflexivity|]. split.
    + intros r [<-|[]]. rewrite upd_same, E. reflexivity.
    + intros r Hn. rewrite upd_other; [reflexivity|]. intros Er. apply Hn. left. lia.
  - rewrite inv_put_ok by (apply Hr; left; reflexivity). cbn [bind].
    rewrite inv_put_ok by (cbn [alen]; apply Hr; right; left; reflexivity). cbn [bind alen aget].
    rewrite inv_put_ok by (cbn [alen]; apply Hr; right; right; left; reflexivity). cbn [bind alen aget].
    eexists. split; [reflexivity|]. cbn [alen aget]. split; [reflexivity|]. split.
    + intros r H. unfold upd. destruct (Z.eqb_spec r (mrex (aget a k))) as [->|N1]; [rewrite Z.eqb_refl; reflexivity|].
      destruct (Z.eqb_spec (r - lo) (mrex (aget a k) - lo)); [lia|].
      destruct (Z.eqb_spec r (mrin (aget a k))) as [->|N2]; [rewrite Z.eqb_refl; reflexivity|].
      destruct (Z.eqb_spec (r - lo) (mrin (aget a k) - lo)); [lia|].
      destruct H as [<-|[H|[H|[]]]]; [rewrite Z.eqb_refl; reflexivity|congruence|congruence].
    + intros r Hn. cbn [In] in Hn. rewrite !upd_other; [reflexivity|lia|lia|lia].
Qed.

(** The state after the inversion: only the offset and the lookup table change. *)
Definition with_look (s : info) (off : Z) (look : arr Z) : info :=
  mkI (inmat s) (inmati s) (imat s) off look (inbr s) (inbri s) (ibr s) (inpar s) (inpari s) (ipar s) (ityp s).

Lemma inv_sets_ok a n lo hi : 0 <= n <= alen a ->
  (forall i x, 0 <= i < n -> In x (refs_of (aget a i)) -> lo <= x <= hi) ->
  exists look, for_range 0 (n - 1) (inv_set a lo) (acalloc (hi - lo + 1) 0) = Ret look /\
    alen look = hi - lo + 1 /\
    (compat_arr a n -> forall i x, 0 <= i < n -> In x (refs_of (aget a i)) ->
       aget look (x - lo) = inv_code i (attr (aget a i) x)) /\
    (forall x, lo <= x <= hi -> (forall i, 0 <= i < n -> ~ In x (refs_of (aget a i))) -> aget look (x - lo) = 0).
Proof.
  intros Hn HB.
  destruct (@for_range_inv (arr Z) (fun k look => alen look = hi - lo + 1 /\
      (compat_arr a n -> forall i x, 0 <= i < k -> In x (refs_of (aget a i)) ->
         aget look (x - lo) = inv_code i (attr (aget a i) x)) /\
      (forall x, lo <= x <= hi -> (forall i, 0 <= i < k -> ~ In x (refs_of (aget a i))) -> aget look (x - lo) = 0))
    (inv_set a lo) 0 (n - 1) (acalloc (hi - lo + 1) 0)) as (look & E & L1 & L2 & L3).
  - lia.
  - split; [reflexivity|]. split; [intros; lia|reflexivity].
  - intros i look Hi (L1 & L2 & L3).
    destruct (inv_set_ok a lo i look) as (look' & E & M1 & M2 & M3).
    + lia.
    + intros x Hx. rewrite L1. specialize (HB i x ltac:(lia) Hx). lia.
    + exists look'. split; [exact E|]. split; [congruence|]. split.
      * intros C j x Hj Hx. destruct (Z.eq_dec j i) as [->|Hji]; [apply M2; exact Hx|].
        rewrite M3; [apply L2; [exact C|lia|exact Hx]|]. intros Hx'. apply Hji.
        apply (proj1 C j i x); [lia|lia|exact Hx|exact Hx'].
      * intros x Hx Hn'. rewrite M3; [apply L3; [exact Hx|]|].
        -- intros j Hj. apply Hn'. lia.
        -- apply Hn'. lia.
  - exists look. replace (n - 1 + 1) with n in * by lia. auto.
Qed.

Lemma multimat_init_ok r s : inmati s = inmat s -> 0 < inmat s <= alen (imat s) ->
  (forall m x, In m (stored (imat s) (inmat s)) -> In x (refs_of m) -> ref_ok x) ->
  (forall x, In x (mrefs_all r) -> ref_ok x) ->
  exists off look, multimat_init r true s = Ret (1, with_look s off look) /\
    (forall m x, In m (stored (imat s) (inmat s)) -> In x (refs_of m) -> off <= x < off + alen look) /\
    (forall x, In x (mrefs_all r) -> off <= x < off + alen look) /\
    (compat_arr (imat s) (inmat s) -> forall i x, 0 <= i < inmat s -> In x (refs_of (aget (imat s) i)) ->
       aget look (x - off) = inv_code i (attr (aget (imat s) i) x)) /\
    (forall x, off <= x < off + alen look ->
       (forall i, 0 <= i < inmat s -> ~ In x (refs_of (aget (imat s) i))) -> aget look (x - off) = 0).
Proof.
  intros Hni Hn Hm Hr. unfold multimat_init.
  destruct (Z.eqb_spec (inmat s) 0); [lia|]. destruct (Z.ltb_spec (inmati s) (inmat s)); [lia|].
  rewrite mm_mats by lia. cbn [bind].
  destruct (fold_left mm (concat (map refs_of (stored (imat s) (inmat s))) ++ mrefs_all r) (INTMAX, 0)) as [lo hi] eqn:E.
  pose proof E as E0. unfold mrefs_all in E0. rewrite !fold_left_app in E0. rewrite E0. clear E0.
  assert (Hin : forall x, In x (concat (map refs_of (stored (imat s) (inmat s)))) <->
                exists m, In m (stored (imat s) (inmat s)) /\ In x (refs_of m)).
  { intros x. rewrite in_concat. split.
    - intros (l & Hl & Hx). apply in_map_iff in Hl. destruct Hl as (m & <- & Hm'). eauto.
    - intros (m & Hm' & Hx). exists (refs_of m). split; [apply in_map; exact Hm'|exact Hx]. }
  apply mm_fold in E. destruct E as (B1 & B2 & B3 & B4 & B5).
  assert (Hlo : 0 <= lo).
  { apply B4; [unfold INTMAX; lia|]. intros x Hx. apply in_app_or in Hx. destruct Hx as [Hx|Hx].
    - apply Hin in Hx. destruct Hx as (m & Hm' & Hx). apply (Hm m x Hm' Hx).
    - apply (Hr x Hx). }
  assert (Hhi : hi <= INTMAX - 1).
  { apply B5; [unfold INTMAX; lia|]. intros x Hx. apply in_app_or in Hx. destruct Hx as [Hx|Hx].
    - apply Hin in Hx. destruct Hx as (m & Hm' & Hx). specialize (Hm m x Hm' Hx). unfold ref_ok in Hm. lia.
    - specialize (Hr x Hx). unfold ref_ok in Hr. lia. }
  assert (Hm0 : In (aget (imat s) 0) (stored (imat s) (inmat s))).
  { rewrite in_stored. exists 0. split; [clear - Hn; lia|reflexivity]. }
  assert (H0 : In (mref (aget (imat s) 0)) (refs_of (aget (imat s) 0))).
  { unfold refs_of. destruct (_ =? 0); left; reflexivity. }
  assert (Hne : lo <= mref (aget (imat s) 0) <= hi).
  { apply B3. apply in_or_app. left. apply Hin. exists (aget (imat s) 0). split; assumption. }
  assert (Hsz : (0 <? hi - lo + 1) && (hi - lo + 1 <=? INTMAX) = true).
  { apply andb_true_intro. split; [apply Z.ltb_lt|apply Z.leb_le]; clear - Hlo Hhi Hne; lia. }
  rewrite Hsz.
  cbn [c_assert bind negb].
  destruct (inv_sets_ok (imat s) (inmat s) lo hi) as (look & E & L1 & L2 & L3).
  - clear - Hn. lia.
  - intros i x Hi Hx. apply B3. apply in_or_app. left. apply Hin. exists (aget (imat s) i). split; [|exact Hx].
    apply in_stored. exists i. split; [exact Hi|reflexivity].
  - clear - E L1 L2 L3 B3 Hin. exists lo, look. rewrite E. cbn [bind]. split; [reflexivity|].
    split; [|split; [|split; [exact L2|]]].
    + intros m x Hm' Hx. enough (lo <= x <= hi) by lia. apply B3. apply in_or_app. left. apply Hin. eauto.
    + intros x Hx. enough (lo <= x <= hi) by lia. apply B3. apply in_or_app. right. exact Hx.
    + intros x Hx. apply L3. lia.
Qed.

(** ** Invariant of the histories *)

Definition op_ok (o : op) : Prop :=
  match o with
  | OMat r ref _ rin rex => ref < INTMAX /\ ref_ok rin /\ ref_ok rex /\ forall x, In x (mrefs_all r) -> ref_ok x
  | _ => True
  end.

Definition inv (s : info) (ms : list mat) (ps : list par) : Prop :=
  (alen (imat s) = Z.max 0 (inmat s) /\ 0 <= inmati s <= alen (imat s) /\
   (forall i x, 0 <= i < inmati s -> In x (refs_of (aget (imat s) i)) -> ref_ok x) /\
   table mref same_mat (imat s) (inmati s) ms) /\
  (alen (ibr s) = Z.max 0 (inbr s) /\ 0 <= inbri s) /\
  (alen (ipar s) = Z.max 0 (inpar s) /\ 0 <= inpari s <= alen (ipar s) /\
   table key_par eq (ipar s) (inpari s) ps).

Lemma same_mat_key a b : same_mat a b -> mref a = mref b.
Proof. intros H. apply H. Qed.

Lemma inv_info0 : inv info0 [] [].
Proof.
  unfold info0. split; [|split]; cbn.
  - split; [reflexivity|]. split; [lia|]. split; [intros; lia|]. apply table_nil.
  - lia.
  - split; [reflexivity|]. split; [lia|]. apply table_nil.
Qed.

Lemma with_look_inv s off look ms ps : inv s ms ps -> inv (with_look s off look) ms ps.
Proof. intros H. exact H. Qed.

Lemma refs_store ref spl rin rex x : ref_ok ref -> ref_ok rin -> ref_ok rex ->
  In x (refs_of (mkM ref spl rin rex)) -> ref_ok x.
Proof.
  intros H1 H2 H3. unfold refs_of. cbn. destruct (spl =? 0); cbn; intros H; intuition congruence.
Qed.

Lemma set_mat_inv r ref split rin rex s ms ps : inv s ms ps -> op_ok (OMat r ref split rin rex) ->
  exists v s', set_mat r true ref split rin rex s = Ret (v, s') /\
    (v = 0 \/ v = 1) /\
    (v = 0 -> s' = s) /\
    inv s' (if v =? 1 then ms ++ [mkM ref split rin rex] else ms) ps.
Proof.
  intros I (O1 & O2 & O3 & O4). pose proof I as ((A1 & A2 & A3 & A4) & B & C). unfold set_mat.
  destruct (Z.eqb_spec (inmat s) 0) as [|N0]; [exists 0, s; auto|].
  destruct (Z.leb_spec (inmat s) (inmati s)) as [|N1]; [exists 0, s; auto|].
  destruct (Z.ltb_spec ref 0) as [|N2]; [exists 0, s; auto|].
  assert (Rk : ref_ok ref) by (split; assumption).
  destruct (find_first_ok _ (imat s) (fun m => mref m =? ref) (inmati s)) as (o & E & P); [lia|].
  rewrite E. cbn [bind]. destruct o as [k|].
  - destruct P as [Hk Pk]. apply Z.eqb_eq in Pk. rewrite wr_ok by lia. cbn [bind].
    eexists 1, _. split; [reflexivity|]. split; [auto|]. split; [discriminate|].
    cbn [Z.eqb Pos.eqb]. split; [|split; [exact B|exact C]]. cbn [imat inmat inmati put_mat alen aget].
    split; [exact A1|]. split; [exact A2|]. split.
    + intros i x Hi. unfold upd. destruct (Z.eqb_spec i k) as [_|_]; [|apply A3; exact Hi].
      destruct (split =? 0); apply refs_store; assumption.
    + apply table_put; [apply same_mat_key|exact A4|exact Hk|exact Pk|].
      destruct (Z.eqb_spec split 0) as [->|Hs]; (split; [reflexivity|]; split; [reflexivity|]); cbn; [lia|auto].
  - destruct (negb (split =? MMAT_Split) && negb (split =? MMAT_NoSplit)) eqn:Esp; [exists 0, s; auto|].
    rewrite wr_ok by lia. cbn [bind]. cbn [imat inmat inmati put_mat].
    assert (I' : inv (put_mat s (inmati s + 1) (mkArr (alen (imat s)) (upd (aget (imat s)) (inmati s) (mkM ref (int8 split) rin rex))))
                     (ms ++ [mkM ref split rin rex]) ps).
    { split; [|split; [exact B|exact C]]. cbn [imat inmat inmati put_mat alen aget].
      split; [exact A1|]. split; [lia|]. split.
      - intros i x Hi. unfold upd. destruct (Z.eqb_spec i (inmati s)) as [_|Hii].
        + apply refs_store; assumption.
        + apply A3. lia.
      - apply table_add; [apply same_mat_key|exact A4|lia| |].
        + intros i Hi Ei. specialize (P i Hi). cbv beta in P. cbn in Ei. lia.
        + split; [reflexivity|]. split; [reflexivity|]. auto. }
    destruct (Z.eqb_spec (inmati s + 1) (inmat s)) as [Ef|].
    + destruct (multimat_init_ok r (put_mat s (inmati s + 1) (mkArr (alen (imat s))
        (upd (aget (imat s)) (inmati s) (mkM ref (int8 split) rin rex)))) ) as (off & look & E1 & _).
      * exact Ef.
      * cbn. lia.
      * intros m x Hm. apply in_stored in Hm. destruct Hm as (i & Hi & <-). apply I'. cbn in *. lia.
      * exact O4.
      * rewrite E1. eexists 1, _. split; [reflexivity|]. split; [auto|]. split; [discriminate|].
        cbn [Z.eqb Pos.eqb]. apply with_look_inv. exact I'.
    + eexists 1, _. split; [reflexivity|]. split; [auto|]. split; [discriminate|]. exact I'.
Qed.

Lemma set_par_inv typ ref a b c s ms ps : inv s ms ps ->
  exists v s', set_par typ ref a b c s = Ret (v, s') /\ (v = 0 \/ v = 1) /\ (v = 0 -> s' = s) /\
    inv s' ms (if v =? 1 then ps ++ [mkPar typ ref a b c] else ps).
Proof.
  intros I. pose proof I as (A & B & (C1 & C2 & C3)). unfold set_par.
  destruct (Z.eqb_spec (inpar s) 0) as [|N0]; [exists 0, s; auto|].
  destruct (Z.leb_spec (inpar s) (inpari s)) as [|N1]; [exists 0, s; auto|].
  destruct (negb _ && negb _); [exists 0, s; auto|].
  destruct (ref <? 0); [exists 0, s; auto|].
  destruct (Qle_bool a 0); [exists 0, s; auto|].
  destruct (Qle_bool b 0); [exists 0, s; auto|].
  destruct (Qle_bool c 0); [exists 0, s; auto|].
  destruct (find_first_ok _ (ipar s) (fun p => (pelt p =? typ) && (parref p =? ref)) (inpari s)) as (o & E & P); [lia|].
  rewrite E. cbn [bind]. destruct o as [k|].
  - destruct P as [Hk Pk]. cbv beta in Pk. rewrite wr_ok by lia. cbn [bind].
    eexists 1, _. split; [reflexivity|]. split; [auto|]. split; [discriminate|].
    split; [exact A|]. split; [exact B|]. cbn [ipar inpar inpari put_par alen].
    split; [exact C1|]. split; [exact C2|].
    apply table_put; [intros ? ? ->; reflexivity|exact C3|exact Hk| |reflexivity].
    unfold key_par. cbn. f_equal; lia.
  - rewrite wr_ok by lia. cbn [bind].
    eexists 1, _. split; [reflexivity|]. split; [auto|]. split; [discriminate|].
    split; [exact A|]. split; [exact B|]. cbn [ipar inpar inpari put_par alen].
    split; [exact C1|]. split; [lia|].
    apply table_add; [intros ? ? ->; reflexivity|exact C3|lia| |reflexivity].
    intros i Hi Ei. specialize (P i Hi). cbv beta in P. unfold key_par in Ei. cbn in Ei. injection Ei as E1 E2. lia.
Qed.

Lemma set_br_inv br s ms ps : inv s ms ps ->
  exists v s', set_br br s = Ret (v, s') /\ inv s' ms ps.
Proof.
  intros I. pose proof I as (A & (B1 & B2) & C). unfold set_br.
  destruct (Z.eqb_spec (inbr s) 0) as [|N0]; [exists 0, s; auto|].
  destruct (Z.leb_spec (inbr s) (inbri s)) as [|N1]; [exists 0, s; auto|].
  destruct (Z.ltb_spec br 0); [exists 0, s; auto|].
  rewrite wr_ok by lia. cbn [bind]. eexists 1, _. split; [reflexivity|].
  split; [exact A|]. split; [|exact C]. cbn. lia.
Qed.

Lemma calls_inv l : forall s ms ps, inv s ms ps -> Forall op_ok l ->
  exists h s', calls l s = Ret (h, s') /\ map fst h = l /\ inv s' (mats_of ms h) (pars_of ps h).
Proof.
  induction l as [|o l IH]; intros s ms ps I F; cbn [calls].
  - exists [], s. auto.
  - inversion F as [|? ? Fo Fl]; subst.
    assert (G : exists v s', call o s = Ret (v, s') /\ exists ms' ps', inv s' ms' ps' /\
              forall h, mats_of ms ((o, v) :: h) = mats_of ms' h /\ pars_of ps ((o, v) :: h) = pars_of ps' h).
    { destruct o as [n|r ref sp rin rex|n|br|n a b c|typ ref a b c]; cbn [call].
      - eexists _, _. split; [reflexivity|]. exists [], ps. split; [|intros h; split; reflexivity].
        destruct I as (A & B & C). split; [|split; [exact B|exact C]].
        unfold set_nmat. cbn. split; [destruct (Z.leb_spec 0 n); lia|].
        split; [destruct (Z.leb_spec 0 n); lia|]. split; [intros; lia|]. apply table_nil.
      - destruct (set_mat_inv r ref sp rin rex s ms ps I Fo) as (v & s' & E & _ & _ & I').
        exists v, s'. split; [exact E|]. eexists _, ps. split; [exact I'|]. intros h. split; reflexivity.
      - eexists _, _. split; [reflexivity|]. exists ms, ps. split; [|intros h; split; reflexivity].
        destruct I as (A & B & C). split; [exact A|]. split; [|exact C].
        unfold set_nbr. cbn. destruct (Z.leb_spec 0 n); cbn; lia.
      - destruct (set_br_inv br s ms ps I) as (v & s' & E & I').
        exists v, s'. split; [exact E|]. exists ms, ps. split; [exact I'|]. intros h. split; reflexivity.
      - eexists _, _. split; [reflexivity|]. exists ms, []. split; [|intros h; split; reflexivity].
        destruct I as (A & B & C). split; [exact A|]. split; [exact B|].
        unfold set_npar. cbn. split; [destruct (Z.leb_spec 0 n); lia|].
        split; [destruct (Z.leb_spec 0 n); lia|]. apply table_nil.
      - destruct (set_par_inv typ ref a b c s ms ps I) as (v & s' & E & _ & _ & I').
        exists v, s'. split; [exact E|]. eexists ms, _. split; [exact I'|]. intros h. split; reflexivity. }
    destruct G as (v & s' & E & ms' & ps' & I' & Hh). rewrite E. cbn [bind].
    destruct (IH s' ms' ps' I' Fl) as (h & s'' & E' & Hm & I''). rewrite E'. cbn [bind].
    exists ((o, v) :: h), s''. split; [reflexivity|]. split; [cbn; rewrite Hm; reflexivity|].
    destruct (Hh h) as [-> ->]. exact I''.
Qed.

(** After any history of calls: no call is undefined, the tables of materials and of
    local parameters never hold more entries than announced, hold one entry per
    reference (type and reference), and the entry of a key is the last accepted one.
    Missing, because it is false: a key that is set may be set again
    ([C30_set_again_refuted]). *)
Theorem C30_tables_partial : forall l, Forall op_ok l ->
  exists h s, calls l info0 = Ret (h, s) /\ map fst h = l /\
    0 <= inmati s <= Z.max 0 (inmat s) /\ 0 <= inpari s <= Z.max 0 (inpar s) /\
    table mref same_mat (imat s) (inmati s) (mats_of [] h) /\
    table key_par eq (ipar s) (inpari s) (pars_of [] h).
Proof.
  intros l F. destruct (calls_inv l info0 [] [] inv_info0 F) as (h & s & E & Hm & I).
  exists h, s. split; [exact E|]. split; [exact Hm|]. destruct I as ((A1 & A2 & A3 & A4) & B & (C1 & C2 & C3)).
  split; [lia|]. split; [lia|]. auto.
Qed.
Print Assumptions C30_tables_partial.

(** As long as the table is not full, a reference that is set may be set again, split or not. *)
Theorem C30_set_again_partial : forall l h s r ref split rin rex i,
  Forall op_ok l -> calls l info0 = Ret (h, s) -> op_ok (OMat r ref split rin rex) ->
  0 <= ref -> inmati s < inmat s -> 0 <= i < inmati s -> mref (aget (imat s) i) = ref ->
  exists s', set_mat r true ref split rin rex s = Ret (1, s') /\ inmati s' = inmati s /\
    same_mat (aget (imat s') i) (mkM ref split rin rex) /\
    forall j, j <> i -> aget (imat s') j = aget (imat s) j.
Proof.
  intros l h s r ref split rin rex i F Ec Fo Hr Hn Hi Ei.
  destruct (calls_inv l info0 [] [] inv_info0 F) as (h' & s0 & E & Hm & I).
  rewrite E in Ec. injection Ec as <- <-.
  destruct I as ((A1 & A2 & A3 & (A4 & _)) & _). unfold set_mat.
  destruct (Z.eqb_spec (inmat s0) 0); [lia|]. destruct (Z.leb_spec (inmat s0) (inmati s0)); [lia|].
  destruct (Z.ltb_spec ref 0); [lia|].
  destruct (find_first_ok _ (imat s0) (fun m => mref m =? ref) (inmati s0)) as (o & Eo & P); [lia|].
  rewrite Eo. cbn [bind]. destruct o as [k|].
  - destruct P as [Hk Pk]. apply Z.eqb_eq in Pk.
    assert (k = i) as -> by (apply A4; [lia|lia|congruence]).
    rewrite wr_ok by lia. cbn [bind]. eexists. split; [reflexivity|]. split; [reflexivity|].
    cbn [imat put_mat aget]. split; [rewrite upd_same|intros j Hj; apply upd_other; exact Hj].
    destruct (Z.eqb_spec split 0) as [->|Hs]; (split; [reflexivity|]; split; [reflexivity|]); cbn; [lia|auto].
  - specialize (P i Hi). cbv beta in P. lia.
Qed.
Print Assumptions C30_set_again_partial.

(** A history with updates of both tables, a rejected call and a new announcement. *)
Definition case30 : list op :=
  [ONmat 9; OMat (mkR [] [] []) 7 1 8 9; ONmat 3; OMat (mkR [] [] []) 4 1 5 6; OMat (mkR [] [] []) 2 0 0 0;
   OMat (mkR [] [] []) 4 1 8 9; OMat (mkR [] [] []) (-1) 1 8 9; OMat (mkR [2;4;7] [30] []) 11 1 12 13;
   ONpar 2 1 1 1; OPar 3 5 1 2 3; OPar 4 5 1 2 3; ONpar 2 1 1 1; OPar 3 5 1 2 3; OPar 3 5 4 5 6; OPar 2 5 1 2 3].

Example C30_case_hyps : Forall op_ok case30.
Proof.
  unfold case30, op_ok, ref_ok, INTMAX. repeat apply Forall_cons; try exact I; try apply Forall_nil;
    cbn; (split; [lia|]; split; [lia|]; split; [lia|]); intros x Hx; intuition lia.
Qed.

Example C30_case :
  ('(h, s) <- calls case30 info0 ;;
   Ret (map snd h, (inmati s, stored (imat s) (inmati s)), (inpari s, aget (ipar s) 0, ityp s), (ioff s, alen (ilook s)))) =
  Ret ([1; 1; 1; 1; 1; 1; 0; 1; 1; 1; 1; 1; 1; 1; 0], (3, [mkM 4 1 8 9; mkM 2 0 0 0; mkM 11 1 12 13]),
       (1, mkPar 3 5 4 5 6, 2), (2, 29)).
Proof. vm_compute. reflexivity. Qed.

(** Once the announced number of entries is reached, changing the value of a
    reference that is already in the table is refused; same for local parameters. *)
Theorem C30_set_again_refuted :
  (exists l h s, Forall op_ok l /\ calls l info0 = Ret (h, s) /\
     (exists i, 0 <= i < inmati s /\ mref (aget (imat s) i) = 4) /\
     set_mat (mkR [] [] []) true 4 1 8 9 s = Ret (0, s)) /\
  (exists l h s, Forall op_ok l /\ calls l info0 = Ret (h, s) /\
     (exists i, 0 <= i < inpari s /\ key_par (aget (ipar s) i) = (3, 5)) /\
     set_par 3 5 4 5 6 s = Ret (0, s)).
Proof.
  split.
  - eexists [ONmat 1; OMat (mkR [] [] []) 4 1 5 6], _, _. split; [|split; [vm_compute; reflexivity|split]].
    + apply Forall_cons; [exact I|]. apply Forall_cons; [|apply Forall_nil].
      unfold op_ok, ref_ok, INTMAX. split; [lia|]. split; [lia|]. split; [lia|]. intros x [].
    + exists 0. cbn. split; [lia|reflexivity].
    + vm_compute. reflexivity.
  - eexists [ONpar 1 1 1 1; OPar 3 5 1 2 3], _, _. split; [|split; [vm_compute; reflexivity|split]].
    + repeat constructor.
    + exists 0. cbn. split; [lia|reflexivity].
    + vm_compute. reflexivity.
Qed.
Print Assumptions C30_set_again_refuted.

(** The table of base references is not that robust: announcing a smaller number
    leaves more references than announced. *)
Theorem C30_base_references_refuted : exists l h s,
  Forall op_ok l /\ calls l info0 = Ret (h, s) /\ Forall (fun x => snd x = 1) h /\ 0 < inbr s < inbri s.
Proof.
  eexists [ONbr 3; OBr 7; OBr 7; OBr 8; ONbr 2], _, _. split; [|split; [vm_compute; reflexivity|split]].
  - repeat constructor.
  - repeat constructor.
  - cbn. lia.
Qed.
Print Assumptions C30_base_references_refuted.

(** After a refused announcement (not enough memory) the number of materials is kept
    but there is no table: the next call writes through a NULL pointer. *)
Theorem C30_refused_announcement_refuted : exists n s ref split rin rex,
  set_nmat n false info0 = (0, s) /\ set_mat (mkR [] [] []) true ref split rin rex s = Stuck.
Proof. eexists 2, _, 1, 1, 2, 3. split; reflexivity. Qed.
Print Assumptions C30_refused_announcement_refuted.
