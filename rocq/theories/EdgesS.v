(** The edges returned by Mmgs: the second pass of [MMGS_packMesh] over the packed
    triangles (/repo/src/mmgs/libmmgs.c:236-269).

    The marks, references and neighbours of the edges are arrays.  The edge table
    is a list of at most [na] edges.  The first pass, which
    counts the edges while the triangles move, is in PackTriS.v.  Not modelled: the
    statistics (line 265). *)
From Coq Require Import ZArith List Bool Lia.
From Verif Require Import CBase SurfModel Tria2.
Import ListNotations.
Open Scope Z_scope.

(** An edge ([MMG5_Edge], libmmgtypes.h): ends, reference, mark. *)
Record sedge : Type := mkSE { s_a : Z; s_b : Z; s_ref : Z; s_tag : Z }.

(** [MG_EDG], mmgcommon_private.h:173. *)
Definition edg (t : Z) : bool := tst t G_GEO || tst t G_REF.
(** Place of the edge [i] of the triangle [k]. *)
Definition scell (k i : Z) : Z := 3 * (k - 1) + 1 + i.

Section Edges.
(** Triangles: vertices, references; edges: references, marks, neighbours; [tmp] of
    the vertices; size of the edge table. *)
Variables (nt : Z) (vt : arr (Z -> Z)) (rf er tg adj tmp : arr Z) (na : Z).

(** libmmgs.c:242-258: the edge is stored from this triangle. *)
Definition from_here (k i : Z) : outcome bool :=
  t <- rd tg (scell k i) ;;
  if negb (edg t) then Ret false
  else
    x <- rd adj (scell k i) ;;
    let jel := Z.quot x 3 in
    if jel =? 0 then Ret true
    else
      rj <- rd rf jel ;;
      rk <- rd rf k ;;
      Ret (if rj <? rk then false else if (rj =? rk) && (k <? jel) then false else true).

(** libmmgs.c:237-269. *)
Definition edges_s : outcome (list sedge) :=
  for_range 1 nt (fun k l =>
    v <- rd vt k ;;
    if 0 <? v 0 then
      for_range 0 2 (fun i l =>
        b <- from_here k i ;;
        if b : bool then
          if na <=? Z.of_nat (length l) then Stuck
          else
            a <- rd tmp (v (nx i)) ;;
            b <- rd tmp (v (nx (nx i))) ;;
            e <- rd er (scell k i) ;;
            t <- rd tg (scell k i) ;;
            Ret (l ++ [mkSE a b e t])
        else Ret l) l
    else Ret l) [].

(** ** Correctness *)

Definition fh (k i : Z) : bool :=
  edg (aget tg (scell k i)) &&
  (let jel := Z.quot (aget adj (scell k i)) 3 in
   (jel =? 0) || negb ((aget rf jel <? aget rf k) || ((aget rf jel =? aget rf k) && (k <? jel)))).
Definition eof (p : Z * Z) : sedge :=
  let '(k, i) := p in
  mkSE (aget tmp (aget vt k (nx i))) (aget tmp (aget vt k (nx (nx i)))) (aget er (scell k i)) (aget tg (scell k i)).
Definition row (k : Z) : list (Z * Z) := filter (fun p => fh (fst p) (snd p)) [(k, 0); (k, 1); (k, 2)].
Definition rows (n : Z) : list (Z * Z) := flat_map row (map Z.of_nat (seq 1 (Z.to_nat n))).

Lemma rows_S n : 0 <= n -> rows (n + 1) = rows n ++ row (n + 1).
Proof.
  clear. intros H. unfold rows. replace (n + 1) with (Z.succ n) by lia. rewrite Z2Nat.inj_succ by lia.
  rewrite seq_S, map_app, flat_map_app. cbn [map flat_map]. rewrite app_nil_r. do 2 f_equal. lia.
Qed.
Lemma rows_le n m : 0 <= n <= m -> (length (rows n) <= length (rows m))%nat.
Proof.
  clear. intros H. replace m with (n + Z.of_nat (Z.to_nat (m - n))) by lia. induction (Z.to_nat (m - n)) as [|q IH].
  - rewrite Z.add_0_r. lia.
  - rewrite Nat2Z.inj_succ. replace (n + Z.succ (Z.of_nat q)) with (n + Z.of_nat q + 1) by lia.
    rewrite rows_S by lia. rewrite app_length. lia.
Qed.
Lemma rows_in n k i : 0 <= n -> In (k, i) (rows n) <-> 1 <= k <= n /\ 0 <= i < 3 /\ fh k i = true.
Proof.
  clear. intros H. unfold rows. rewrite in_flat_map. unfold row. split.
  - intros (x & X & Y). apply in_map_iff in X. destruct X as (m & <- & M). apply in_seq in M.
    apply filter_In in Y. cbn [fst snd In] in Y. destruct Y as [[Y|[Y|[Y|[]]]] F]; inversion Y; subst; repeat split; auto; lia.
  - intros (A & B & C). exists k. split; [apply in_map_iff; exists (Z.to_nat k); split; [lia | apply in_seq; lia]|].
    apply filter_In. split; [|exact C]. assert (i = 0 \/ i = 1 \/ i = 2) as [-> | [-> | ->]] by lia; cbn; tauto.
Qed.
Lemma rows_nodup n : NoDup (rows n).
Proof.
  clear. unfold rows. induction (Z.to_nat n) as [|q IH]; [constructor|].
  rewrite seq_S, map_app, flat_map_app. cbn [map flat_map]. rewrite app_nil_r.
  assert (G : forall (l m : list (Z * Z)), NoDup l -> NoDup m -> (forall x, In x l -> ~ In x m) -> NoDup (l ++ m)).
  { clear. induction l as [|x l IH]; intros m A B C; [exact B|]. cbn [app]. inversion A; subst. constructor.
    - rewrite in_app_iff. intros [D|D]; [contradiction | exact (C x (or_introl eq_refl) D)].
    - apply IH; [assumption | exact B |]. intros y Y. apply C. right. exact Y. }
  apply G; [exact IH| |].
  - apply NoDup_filter. repeat constructor; cbn [In]; intuition congruence.
  - intros [k i] X Y. apply in_flat_map in X. destruct X as (x & X & X'). apply in_map_iff in X. destruct X as (m & <- & M).
    apply in_seq in M. unfold row in *. apply filter_In in X', Y. cbn [In] in *. destruct X' as [X' _], Y as [Y _].
    assert (k = Z.of_nat m) by (destruct X' as [E|[E|[E|[]]]]; inversion E; reflexivity).
    assert (k = Z.of_nat (1 + q)) by (destruct Y as [E|[E|[E|[]]]]; inversion E; reflexivity). lia.
Qed.

Hypothesis Hnt : 0 <= nt.
Hypothesis Lv : nt < alen vt.
Hypothesis Lr : nt < alen rf.
Hypothesis Le : 3 * nt < alen er.
Hypothesis Lt : 3 * nt < alen tg.
Hypothesis La : 3 * nt < alen adj.
Hypothesis Hv : forall k i, 1 <= k <= nt -> 0 <= i < 3 -> 0 < aget vt k i < alen tmp.
Hypothesis Ha : forall k i, 1 <= k <= nt -> 0 <= i < 3 -> 0 <= Z.quot (aget adj (scell k i)) 3 <= nt.

Lemma from_here_ok k i : 1 <= k <= nt -> 0 <= i < 3 -> from_here k i = Ret (fh k i).
Proof.
  intros K I. pose proof (Ha k i K I) as J. unfold from_here, fh.
  rewrite rd_ok by (unfold scell; lia). cbn [bind]. destruct (edg (aget tg (scell k i))); [|reflexivity]. cbn [negb andb].
  rewrite rd_ok by (unfold scell; lia). cbn [bind]. destruct (Z.eqb_spec (Z.quot (aget adj (scell k i)) 3) 0); [reflexivity|].
  rewrite !rd_ok by lia. cbn [bind orb].
  destruct (aget rf (Z.quot (aget adj (scell k i)) 3) <? aget rf k); [reflexivity|]. cbn [orb].
  destruct ((aget rf (Z.quot (aget adj (scell k i)) 3) =? aget rf k) && (k <? Z.quot (aget adj (scell k i)) 3)); reflexivity.
Qed.

Hypothesis Hna : Z.of_nat (length (rows nt)) <= na.

(** The first [i] edges of [k]. *)
Definition part (k i : Z) : list (Z * Z) :=
  filter (fun p => fh (fst p) (snd p)) (if i =? 0 then [] else if i =? 1 then [(k, 0)] else if i =? 2 then [(k, 0); (k, 1)] else [(k, 0); (k, 1); (k, 2)]).

Lemma part_S k i : 0 <= i < 3 -> part k (i + 1) = part k i ++ (if fh k i then [(k, i)] else []).
Proof.
  clear. intros H. assert (i = 0 \/ i = 1 \/ i = 2) as [-> | [-> | ->]] by lia; unfold part; cbn.
  - destruct (fh k 0); reflexivity.
  - destruct (fh k 0), (fh k 1); reflexivity.
  - destruct (fh k 0), (fh k 1), (fh k 2); reflexivity.
Qed.
Lemma part_le k i : 0 <= i <= 3 -> (length (part k i) <= length (row k))%nat.
Proof.
  clear. intros H. change (row k) with (part k 3). assert (i = 0 \/ i = 1 \/ i = 2 \/ i = 3) as [-> | [-> | [-> | ->]]] by lia; unfold part; cbn;
  destruct (fh k 0), (fh k 1), (fh k 2); cbn; lia.
Qed.

Lemma edges_s_ok : edges_s = Ret (map eof (rows nt)).
Proof.
  unfold edges_s.
  match goal with |- for_range 1 nt ?f ?s = _ =>
    destruct (@for_range_inv (list sedge) (fun k l => l = map eof (rows (k - 1))) f 1 nt s) as (l & E & I) end.
  - lia.
  - reflexivity.
  - intros k l K ->. rewrite rd_ok by lia. cbn [bind]. pose proof (Hv k 0 K ltac:(lia)) as V0.
    destruct (Z.ltb_spec 0 (aget vt k 0)); [|lia].
    match goal with |- context [for_range 0 2 ?f ?s] =>
      destruct (@for_range_inv (list sedge) (fun i l => l = map eof (rows (k - 1) ++ part k i)) f 0 2 s) as (l & E & I) end.
    + lia.
    + unfold part. cbn. rewrite app_nil_r. reflexivity.
    + intros i l Hi ->. rewrite from_here_ok by lia. cbn [bind]. rewrite part_S by lia.
      destruct (fh k i) eqn:F; [|rewrite app_nil_r; eexists; split; reflexivity].
      rewrite map_length, app_length.
      assert (B : (length (rows (k - 1)) + length (part k i) + 1 <= length (rows nt))%nat).
      { pose proof (rows_le k nt ltac:(lia)) as R. replace k with (k - 1 + 1) in R at 1 by lia. rewrite rows_S, app_length in R by lia.
        replace (k - 1 + 1) with k in R by lia. pose proof (part_le k (i + 1) ltac:(lia)) as P. rewrite part_S, F, app_length in P by lia. cbn [length] in P. lia. }
      destruct (Z.leb_spec na (Z.of_nat (length (rows (k - 1)) + length (part k i)))); [lia|].
      assert (N1 : 0 <= nx i < 3) by (unfold nx; destruct (i =? 0), (i =? 1); lia).
      assert (N2 : 0 <= nx (nx i) < 3) by (unfold nx at 1 3; destruct (nx i =? 0), (nx i =? 1); lia).
      pose proof (Hv k _ K N1). pose proof (Hv k _ K N2).
      rewrite rd_ok by lia. cbn [bind]. rewrite rd_ok by lia. cbn [bind]. rewrite rd_ok by (unfold scell; lia). cbn [bind].
      rewrite rd_ok by (unfold scell; lia). cbn [bind]. eexists. split; [reflexivity|].
      rewrite app_assoc, (map_app eof (rows (k - 1) ++ part k i)). reflexivity.
    + rewrite E. eexists. split; [reflexivity|]. rewrite I. replace (k + 1 - 1) with (k - 1 + 1) by lia.
      rewrite rows_S by lia. replace (k - 1 + 1) with k by lia. reflexivity.
  - rewrite E, I. replace (nt + 1 - 1) with nt by lia. reflexivity.
Qed.

End Edges.
