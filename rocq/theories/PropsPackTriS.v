(** Property C84 for the whole of the packing: the triangles are packed, the edges
    counted, the table of that size filled. *)
From Coq Require Import ZArith List Lia Bool.
From Verif Require Import CBase SurfModel Tria2 PropsTria2 EdgesS PropsEdgesS PackTriS.
Import ListNotations.
Open Scope Z_scope.

(** ** Specification *)

(** A side of a triangle in use, and whether its edge is a ridge or has a reference. *)
Definition u_side (nt : Z) (tr : arr ptri) (k i : Z) : Prop := 1 <= k <= nt /\ 0 < q_v (aget tr k) 0 /\ 0 <= i < 3.
Definition u_special (tr : arr ptri) (k i : Z) : Prop :=
  Z.testbit (q_tg (aget tr k) i) 1 = true \/ Z.testbit (q_tg (aget tr k) i) 0 = true.
Definition u_mates (adj : arr (Z -> Z)) (k i l j : Z) : Prop := aget adj k i = 3 * l + j /\ aget adj l j = 3 * k + i.

(** A surface mesh, holes anywhere. *)
Record sparse (nt : Z) (tr : arr ptri) (adj : arr (Z -> Z)) (tmp : arr Z) : Prop := {
  sp_nt : 0 <= nt;
  sp_tr : nt < alen tr;
  sp_adj : nt < alen adj;
  sp_v : forall k i, u_side nt tr k i -> 0 < q_v (aget tr k) i < alen tmp;
  sp_mates : forall k i, u_side nt tr k i -> aget adj k i = 0 \/
    exists l j, u_side nt tr l j /\ l <> k /\ u_mates adj k i l j /\ (u_special tr k i <-> u_special tr l j)
}.

(** One side of each special edge of the mesh, in its old numbers. *)
Definition u_one_each (nt : Z) (tr : arr ptri) (adj : arr (Z -> Z)) (S : list (Z * Z)) : Prop :=
  NoDup S /\
  (forall k i, In (k, i) S -> u_side nt tr k i /\ u_special tr k i) /\
  (forall k i, u_side nt tr k i -> u_special tr k i -> aget adj k i = 0 -> In (k, i) S) /\
  (forall k i l j, u_side nt tr k i -> u_special tr k i -> u_side nt tr l j -> l <> k -> u_mates adj k i l j ->
     (In (k, i) S /\ ~ In (l, j) S) \/ (~ In (k, i) S /\ In (l, j) S)).

Definition u_edge (tr : arr ptri) (tmp : arr Z) (p : Z * Z) : sedge :=
  let t := aget tr (fst p) in
  mkSE (aget tmp (q_v t (s_next (snd p)))) (aget tmp (q_v t (s_next (s_next (snd p))))) (q_er t (snd p)) (q_tg t (snd p)).

(** The tables of EdgesS.v from those of PackTriS.v. *)
Definition flat {A} (a : arr A) (f : A -> Z -> Z) : arr Z :=
  mkArr (3 * alen a) (fun c => f (aget a ((c - 1) / 3 + 1)) ((c - 1) mod 3)).
Definition second_pass (s : pstate) (tmp : arr Z) : outcome (list sedge) :=
  edges_s (p_nbl s - 1) (mkArr (alen (p_tr s)) (fun k => q_v (aget (p_tr s) k))) (mkArr (alen (p_tr s)) (fun k => q_ref (aget (p_tr s) k)))
    (flat (p_tr s) q_er) (flat (p_tr s) q_tg) (flat (p_adj s) (fun r => r)) tmp (p_na s).

(** ** C84 *)

Lemma flat_cell {A} (a : arr A) f k i : 0 <= i < 3 -> aget (flat a f) (scell k i) = f (aget a k) i.
Proof.
  intros H. unfold flat, scell. cbn [aget]. replace (3 * (k - 1) + 1 + i - 1) with (i + (k - 1) * 3) by lia.
  rewrite Z.div_add, Z.mod_add, Z.div_small, Z.mod_small by lia. f_equal. f_equal. lia.
Qed.

Section P.
Variables (nt : Z) (tr : arr ptri) (adj : arr (Z -> Z)) (tmp : arr Z).
Hypothesis M : sparse nt tr adj tmp.

Lemma side_u k i : side nt tr k i <-> u_side nt tr k i.
Proof. unfold side, u_side, usd, q_ok. rewrite Z.ltb_lt. tauto. Qed.
Lemma spec_u k i : edg (q_tg (aget tr k) i) = true <-> u_special tr k i.
Proof.
  unfold edg, u_special. change G_GEO with (2 ^ 1). change G_REF with (2 ^ 0). rewrite !tst_bit by lia. apply orb_true_iff.
Qed.
Lemma Hadj : forall k i, side nt tr k i -> aget adj k i = 0 \/
  exists l j, side nt tr l j /\ l <> k /\ aget adj k i = 3 * l + j /\ aget adj l j = 3 * k + i.
Proof.
  intros k i S. apply side_u in S. destruct (sp_mates _ _ _ _ M k i S) as [E|(l & j & L & N & [E E'] & _)]; [left; exact E|].
  right. exists l, j. rewrite side_u. auto.
Qed.

Lemma orows_in n k i : 0 <= n -> In (k, i) (orows tr adj n) <-> 1 <= k <= n /\ usd tr k = true /\ 0 <= i < 3 /\ ofh tr adj k i = true.
Proof.
  intros H. unfold orows. rewrite in_flat_map. unfold orow. split.
  - intros (x & X & Y). apply in_map_iff in X. destruct X as (m & <- & X). apply in_seq in X.
    destruct (usd tr (Z.of_nat m)) eqn:U; [|destruct Y].
    apply filter_In in Y. cbn [fst snd In] in Y. destruct Y as [[Y|[Y|[Y|[]]]] F]; inversion Y; subst; repeat split; auto; lia.
  - intros (A & U & B & C). exists k. split; [apply in_map_iff; exists (Z.to_nat k); split; [lia | apply in_seq; lia]|].
    rewrite U. apply filter_In. split; [|exact C]. assert (i = 0 \/ i = 1 \/ i = 2) as [-> | [-> | ->]] by lia; cbn; tauto.
Qed.

Variable s : pstate.
Hypothesis I : inv nt tr adj (nt + 1) s.

Lemma loc_end k : 1 <= k <= nt -> loc tr (nt + 1) k = num tr k.
Proof. intros K. unfold loc. destruct (Z.ltb_spec k (nt + 1)); [reflexivity | lia]. Qed.
Lemma tr_end k : 1 <= k <= nt -> usd tr k = true -> aget (p_tr s) (num tr k) = aget tr k.
Proof. intros K U. destruct I as (_ & _ & _ & _ & _ & G & _). rewrite <- loc_end by exact K. apply G; assumption. Qed.
Lemma adj_end k i : side nt tr k i -> aget (p_adj s) (num tr k) i = ent tr (nt + 1) (aget adj k i).
Proof. intros S. destruct I as (_ & _ & _ & _ & _ & _ & G). pose proof S as (K & _). rewrite <- loc_end by exact K. apply G; assumption. Qed.

Definition rfv := mkArr (alen (p_tr s)) (fun k => q_ref (aget (p_tr s) k)).
Definition tgv := flat (p_tr s) q_tg.
Definition adv := flat (p_adj s) (fun r => r).
Definition renum (p : Z * Z) : Z * Z := (num tr (fst p), snd p).

Lemma num_lt_iff k l : 1 <= k -> 1 <= l -> usd tr k = true -> usd tr l = true -> (num tr k <? num tr l) = (k <? l).
Proof.
  intros A B U V. destruct (Z.lt_total k l) as [X|[->|X]].
  - pose proof (num_lt tr k l ltac:(lia) V). destruct (Z.ltb_spec (num tr k) (num tr l)), (Z.ltb_spec k l); lia.
  - rewrite !Z.ltb_irrefl. reflexivity.
  - pose proof (num_lt tr l k ltac:(lia) U). destruct (Z.ltb_spec (num tr k) (num tr l)), (Z.ltb_spec k l); lia.
Qed.

Lemma fh_end k i : side nt tr k i -> fh rfv tgv adv (num tr k) i = ofh tr adj k i.
Proof.
  intros S. pose proof S as (K & U & Hi). unfold fh, ofh, rfv, tgv, adv. rewrite !flat_cell by exact Hi. cbn [aget].
  rewrite tr_end by assumption. rewrite adj_end by exact S. destruct (edg (q_tg (aget tr k) i)); [|reflexivity]. cbn [andb].
  destruct (Hadj k i S) as [E|(l & j & (L1 & L2 & L3) & N & E & _)]; rewrite E; [reflexivity|].
  rewrite ent_m, loc_end by lia. pose proof (num_le tr l ltac:(lia)). destruct (q3 (num tr l) j) as [-> _]; try lia. destruct (q3 l j) as [-> _]; try lia.
  pose proof (num_lt tr 0 l ltac:(lia) L2) as P. change (num tr 0) with 0 in P.
  destruct (Z.eqb_spec (num tr l) 0); [lia|]. destruct (Z.eqb_spec l 0); [lia|]. rewrite tr_end, num_lt_iff by (auto; lia). reflexivity.
Qed.

Lemma rows_end n : 0 <= n <= nt -> rows rfv tgv adv (num tr n) = map renum (orows tr adj n).
Proof.
  intros H. replace n with (Z.of_nat (Z.to_nat n)) by lia. assert (B : Z.of_nat (Z.to_nat n) <= nt) by lia. revert B.
  induction (Z.to_nat n) as [|q IH]; intros B; [reflexivity|].
  rewrite num_S by lia. replace (Z.of_nat (S q)) with (Z.of_nat q + 1) by lia. rewrite orows_S, map_app, <- IH by lia.
  replace (Z.of_nat q + 1 - 1) with (Z.of_nat q) by lia. unfold orow.
  pose proof (num_le tr (Z.of_nat q) ltac:(lia)). pose proof (num_S tr (Z.of_nat q + 1) ltac:(lia)) as NS.
  replace (Z.of_nat q + 1 - 1) with (Z.of_nat q) in NS by lia.
  destruct (usd tr (Z.of_nat q + 1)) eqn:U; [|rewrite Z.add_0_r, app_nil_r; reflexivity].
  rewrite rows_S by lia. f_equal. rewrite <- NS. unfold row. cbn [filter fst snd].
  rewrite !fh_end by (split; [lia | split; [exact U | lia]]).
  destruct (ofh tr adj (Z.of_nat q + 1) 0), (ofh tr adj (Z.of_nat q + 1) 1), (ofh tr adj (Z.of_nat q + 1) 2); reflexivity.
Qed.

Lemma surj m n : 0 <= n <= nt -> 1 <= m <= num tr n -> exists k, 1 <= k <= n /\ usd tr k = true /\ num tr k = m.
Proof.
  intros H. replace n with (Z.of_nat (Z.to_nat n)) by lia. induction (Z.to_nat n) as [|q IH]; intros B; [cbn in B; lia|].
  pose proof (num_S tr (Z.of_nat (S q)) ltac:(lia)) as NS. replace (Z.of_nat (S q) - 1) with (Z.of_nat q) in NS by lia.
  destruct (Z.le_gt_cases m (num tr (Z.of_nat q))) as [X|X].
  - destruct IH as (k & A & C); [lia|]. exists k. split; [lia | exact C].
  - exists (Z.of_nat (S q)). destruct (usd tr (Z.of_nat (S q))); [|lia]. split; [lia|]. split; [reflexivity | lia].
Qed.

Lemma one_end : u_one_each nt tr adj (orows tr adj nt).
Proof.
  pose proof (sp_nt _ _ _ _ M) as P.
  assert (IN : forall k i, In (k, i) (orows tr adj nt) <-> u_side nt tr k i /\ ofh tr adj k i = true).
  { intros k i. rewrite orows_in, <- side_u by exact P. unfold side. tauto. }
  split; [|split; [|split]].
  - apply (NoDup_map_inv renum). rewrite <- rows_end by lia. apply rows_nodup.
  - intros k i X. apply IN in X. destruct X as [S F]. split; [exact S|]. unfold ofh in F. apply andb_prop in F. apply spec_u. tauto.
  - intros k i S X Z0. apply IN. split; [exact S|]. unfold ofh. apply spec_u in X. rewrite X, Z0. reflexivity.
  - intros k i l j Sk X Sl N Mt.
    assert (X' : u_special tr l j).
    { destruct (sp_mates _ _ _ _ M k i Sk) as [Z0|(l' & j' & S' & _ & [E1 _] & G)].
      - destruct Mt as [E _]. destruct Sl as (? & ? & ?). lia.
      - destruct Mt as [E _]. destruct Sl as (L1 & _ & L2), S' as (L1' & _ & L2'). assert (l' = l /\ j' = j) as [-> ->] by lia. apply G. exact X. }
    destruct Mt as [E1 E2]. rewrite !IN. unfold ofh. apply spec_u in X, X'. rewrite X, X'. cbn [andb].
    pose proof Sk as (K1 & _ & K2). pose proof Sl as (L1 & _ & L2). rewrite E1, E2, !mate_quot by lia.
    destruct (Z.eqb_spec l 0); [lia|]. destruct (Z.eqb_spec k 0); [lia|]. cbn [orb].
    destruct (Z.ltb_spec (q_ref (aget tr l)) (q_ref (aget tr k))), (Z.ltb_spec (q_ref (aget tr k)) (q_ref (aget tr l))),
      (Z.eqb_spec (q_ref (aget tr l)) (q_ref (aget tr k))), (Z.eqb_spec (q_ref (aget tr k)) (q_ref (aget tr l))),
      (Z.ltb_spec k l), (Z.ltb_spec l k); try lia; cbn; intuition congruence.
Qed.

Lemma second_end : second_pass s tmp = Ret (map (u_edge tr tmp) (orows tr adj nt)).
Proof.
  pose proof (sp_nt _ _ _ _ M) as P. pose proof (num_le tr nt P) as NL.
  pose proof (sp_tr _ _ _ _ M). pose proof (sp_adj _ _ _ _ M).
  destruct I as (A & B & C & D & _). replace (nt + 1 - 1) with nt in C, D by lia.
  unfold second_pass. rewrite C. replace (num tr nt + 1 - 1) with (num tr nt) by lia.
  rewrite edges_s_ok.
  - change (mkArr (alen (p_tr s)) (fun k => q_ref (aget (p_tr s) k))) with rfv. change (flat (p_tr s) q_tg) with tgv at 2. change (flat (p_adj s) (fun r => r)) with adv.
    rewrite rows_end by lia. rewrite map_map. f_equal. apply map_ext_in. intros [k i] X. apply orows_in in X; [|exact P].
    destruct X as (K & U & Hi & _). unfold eof, renum, u_edge. cbn [fst snd aget]. rewrite !flat_cell, tr_end by assumption.
    assert (i = 0 \/ i = 1 \/ i = 2) as [-> | [-> | ->]] by lia; reflexivity.
  - lia.
  - cbn [alen]. lia.
  - cbn [alen]. lia.
  - cbn [alen flat]. lia.
  - cbn [alen flat]. lia.
  - cbn [alen flat]. lia.
  - intros m i Hm Hi. destruct (surj m nt ltac:(lia) Hm) as (k & K & U & <-). cbn [aget]. rewrite tr_end by assumption.
    apply (sp_v _ _ _ _ M). apply side_u. split; [exact K|]. split; assumption.
  - intros m i Hm Hi. destruct (surj m nt ltac:(lia) Hm) as (k & K & U & <-). rewrite flat_cell by exact Hi.
    assert (S : side nt tr k i) by (split; [exact K | split; assumption]). rewrite adj_end by exact S.
    destruct (Hadj k i S) as [E|(l & j & (L1 & L2 & L3) & N & E & _)]; rewrite E; [cbn; lia|].
    rewrite ent_m, loc_end by lia. pose proof (num_le tr l ltac:(lia)). destruct (q3 (num tr l) j) as [-> _]; try lia.
    pose proof (num_mono tr l nt ltac:(lia)). lia.
  - change (mkArr (alen (p_tr s)) (fun k => q_ref (aget (p_tr s) k))) with rfv. change (flat (p_tr s) q_tg) with tgv. change (flat (p_adj s) (fun r => r)) with adv.
    rewrite rows_end, map_length by lia. lia.
Qed.
End P.

(** The packing and the creation of the edges never fail, the table of edges is
    large enough, and each special edge of the mesh is in it once. *)
Theorem special_edges_of_the_mesh : forall nt tr adj tmp, sparse nt tr adj tmp ->
  exists s S, pack_tri nt tr adj = Ret s /\ u_one_each nt tr adj S /\ p_na s = Z.of_nat (length S) /\
    second_pass s tmp = Ret (map (u_edge tr tmp) S).
Proof.
  intros nt tr adj tmp M.
  destruct (pack_ok nt tr adj (sp_nt _ _ _ _ M) (sp_tr _ _ _ _ M) (sp_adj _ _ _ _ M) (Hadj nt tr adj tmp M)) as (s & E & I).
  exists s, (orows tr adj nt). split; [exact E|]. split; [exact (one_end nt tr adj tmp M s I)|].
  split; [destruct I as (_ & _ & _ & D & _); replace (nt + 1 - 1) with nt in D by lia; exact D|].
  exact (second_end nt tr adj tmp M s I).
Qed.

(** ** Case: the two triangles of PropsEdgesS.v with holes before and between them *)

Definition hole : ptri := mkPT (fun _ => 0) 0 (fun _ => 0) (fun _ => 0).
Definition of3 (a b c i : Z) : Z := if i =? 0 then a else if i =? 1 then b else c.
Definition holed : arr ptri :=
  aof hole [hole; mkPT (of3 1 2 3) 7 (of3 9 0 8) (of3 2 0 1); hole; mkPT (of3 2 4 3) 5 (of3 0 9 0) (of3 0 2 0)].
Definition holed_adj : arr (Z -> Z) := aof (of3 0 0 0) [of3 0 0 0; of3 13 0 0; of3 0 0 0; of3 0 6 0].

Lemma holed_sides k i : u_side 4 holed k i -> (k = 2 \/ k = 4) /\ (i = 0 \/ i = 1 \/ i = 2).
Proof.
  intros (A & B & C). split; [|lia]. assert (k = 1 \/ k = 2 \/ k = 3 \/ k = 4) as [-> | [-> | [-> | ->]]] by lia; auto; vm_compute in B; discriminate B.
Qed.

Example holed_mesh : sparse 4 holed holed_adj ids5.
Proof.
  split; try (vm_compute; reflexivity); try lia.
  - intros k i S. destruct (holed_sides k i S) as [[-> | ->] [-> | [-> | ->]]]; split; vm_compute; reflexivity.
  - intros k i S. destruct (holed_sides k i S) as [[-> | ->] [-> | [-> | ->]]]; try (left; vm_compute; reflexivity).
    + right. exists 4, 1. split; [split; [lia | split; [vm_compute; reflexivity | lia]]|]. split; [lia|]. split; [split; vm_compute; reflexivity|]. unfold u_special. vm_compute. tauto.
    + right. exists 2, 0. split; [split; [lia | split; [vm_compute; reflexivity | lia]]|]. split; [lia|]. split; [split; vm_compute; reflexivity|]. unfold u_special. vm_compute. tauto.
Qed.
Example holed_edges : bind (pack_tri 4 holed holed_adj) (fun s => second_pass s ids5) = Ret [mkSE 1 2 8 1; mkSE 3 2 9 2].
Proof. vm_compute. reflexivity. Qed.

Print Assumptions special_edges_of_the_mesh.
