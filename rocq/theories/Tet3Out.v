(** The mesh after the collapse of an edge is conforming. *)
From Coq Require Import ZArith List Lia Bool.
From Verif Require Import CBase Tet3Model Tet3Spec Tet3Proofs Tet3Ball Tet3Shell Tet3Pool Tet3Col.
Import ListNotations.
Open Scope Z_scope.

(** The points of a face in a list. *)
Definition fpts (m : mesh) (k i : Z) : list Z := map (vtx m k) (idir i).
Lemma idir_len i : loc i -> length (idir i) = 3%nat.
Proof. intros [->|[->|[->| ->]]]; reflexivity. Qed.
Lemma idir_nodup i : loc i -> NoDup (idir i).
Proof. intros [->|[->|[->| ->]]]; cbv; repeat constructor; cbn; intuition discriminate. Qed.
Lemma fpts_ok m k i x : loc i -> (In x (fpts m k i) <-> on_face m k i x).
Proof.
  intros Li. unfold fpts. rewrite in_map_iff. split.
  - intros (a & E & I). pose proof (idir_loc i a Li I) as La. exists a. split; [exact La|]. split; [apply (idir_others i a Li La), I|exact E].
  - intros (a & La & N & E). exists a. split; [exact E|]. apply (idir_others i a Li La), N.
Qed.
Lemma fpts_nodup m k i : vertices_ok m -> live m k -> loc i -> NoDup (fpts m k i).
Proof.
  intros V L Li. destruct (V k L) as [_ J]. unfold fpts. pose proof (idir_nodup i Li) as ND. pose proof (fun a => idir_loc i a Li) as IL.
  induction (idir i) as [|a r IH]; cbn; [constructor|]. inversion ND; subst. constructor.
  - rewrite in_map_iff. intros (b & E & I). assert (b = a) by (apply J; [apply IL; right; exact I|apply IL; left; reflexivity|exact E]). subst. contradiction.
  - apply IH; [assumption|]. intros b I. apply IL. right. exact I.
Qed.
Lemma face_incl m k i l j : vertices_ok m -> live m k -> live m l -> loc i -> loc j -> (forall x, on_face m k i x -> on_face m l j x) -> same_face m k i l j.
Proof.
  intros V Lk Ll Li Lj H x. split; [apply H|]. rewrite <- !fpts_ok by assumption.
  apply (NoDup_length_incl (fpts_nodup m k i V Lk Li)).
  - unfold fpts. rewrite !map_length, !idir_len by assumption. apply le_n.
  - intros y I. apply fpts_ok; [exact Lj|]. apply H. apply fpts_ok; assumption.
Qed.

(** A way to show that the adjacency table is right. *)
Lemma adjacent_by m : vertices_ok m ->
  (forall k i l j, live m k -> loc i -> live m l -> loc j -> l <> k -> same_face m k i l j -> nb m k i = 4 * l + j) ->
  (forall k i, live m k -> loc i -> nb m k i <> 0 -> exists l j, live m l /\ loc j /\ nb m k i = 4 * l + j /\ l <> k /\ same_face m k i l j) ->
  adjacent m.
Proof.
  intros V H1 H2 k i Lk Li. destruct (Z.eq_dec (nb m k i) 0) as [Z0|NZ].
  - left. split; [exact Z0|]. intros l j Ll Lj S. destruct (Z.eq_dec l k) as [->|N]; [split; [reflexivity|symmetry; apply (same_self m k); assumption]|].
    exfalso. pose proof (H1 k i l j Lk Li Ll Lj N S). apply (enc_pos l j (live_pos m l Ll) Lj). congruence.
  - right. destruct (H2 k i Lk Li NZ) as (l & j & Ll & Lj & E & N & S). exists l, j. repeat split; try apply Ll; try apply S; auto.
    intros l' j' Ll' Lj' S'. destruct (Z.eq_dec l' k) as [->|N']; [left; split; [reflexivity|symmetry; apply (same_self m k); assumption]|].
    right. pose proof (H1 k i l' j' Lk Li Ll' Lj' N' S') as E'. rewrite E in E'.
    apply loc_le in Lj, Lj'. clear - E' Lj Lj'. lia.
Qed.

Section Out.
Variable m : mesh.
Hypothesis VO : vertices_ok m.
Hypothesis A : adjacent m.
Hypothesis NT : no_twins m.
Variable p q : Z.
Hypothesis PQ : p <> q.
Hypothesis Q0 : 0 < q.
Hypothesis CT : contractible m p q.
Hypothesis TW : forall k n, ~ twin m p q k n.
Variable m3 : mesh.
Hypothesis HL : forall x, live m3 x <-> live m x /\ ~ sh m p q x.
Hypothesis HV : forall x y, live m3 x -> loc y -> vtx m3 x y = ren p q (vtx m x y).
Hypothesis HZ : forall x y, live m3 x -> loc y -> nb m x y = 0 -> nb m3 x y = 0.
Hypothesis HB : forall x y, live m3 x -> loc y -> nb m x y <> 0 -> ~ sh m p q (nb m x y / 4) -> nb m3 x y = nb m x y.
Hypothesis HC : forall x y, live m3 x -> loc y -> nb m x y <> 0 -> let s := nb m x y / 4 in let j := nb m x y mod 4 in sh m p q s ->
  (vtx m s j = q -> nb m3 x y = nb m s (find m s p)) /\ (vtx m s j = p -> nb m3 x y = nb m s (find m s q)).

Lemma ren_p : ren p q p = q.
Proof. unfold ren. rewrite Z.eqb_refl. reflexivity. Qed.
Lemma ren_o x : x <> p -> ren p q x = x.
Proof. intros H. unfold ren. destruct (Z.eqb_spec x p); [contradiction|reflexivity]. Qed.
Lemma ren_inj x y : ren p q x = ren p q y -> x = y \/ (x = p /\ y = q) \/ (x = q /\ y = p).
Proof. unfold ren. destruct (Z.eqb_spec x p), (Z.eqb_spec y p); intros; subst; auto. Qed.
Lemma ren_not_p x : ren p q x <> p.
Proof. unfold ren. destruct (Z.eqb_spec x p); congruence. Qed.

Lemma HLm x : live m3 x -> live m x.
Proof. intros L. apply HL, L. Qed.
Lemma HLs x : live m3 x -> has m x p -> has m x q -> False.
Proof. intros L H1 H2. apply HL in L. apply L. split; assumption. Qed.

Lemma V3 : vertices_ok m3.
Proof.
  intros k L. destruct (VO k (HLm k L)) as [P J]. split.
  - intros a La. rewrite HV by assumption. unfold ren. destruct (vtx m k a =? p); [exact Q0|apply P, La].
  - intros a b La Lb E. rewrite !HV in E by assumption. apply ren_inj in E. destruct E as [E|[[E1 E2]|[E1 E2]]]; [apply J; assumption| |];
      exfalso; apply (HLs k L); [exists a|exists b|exists b|exists a]; auto.
Qed.

Lemma on3 k i x : live m3 k -> (on_face m3 k i x <-> exists y, on_face m k i y /\ x = ren p q y).
Proof.
  intros L. split.
  - intros (a & La & N & E). rewrite HV in E by assumption. exists (vtx m k a). split; [apply on_other; assumption|congruence].
  - intros (y & (a & La & N & E) & ->). exists a. split; [exact La|]. split; [exact N|]. rewrite HV by assumption. congruence.
Qed.
Lemma has3 k x : live m3 k -> (has m3 k x <-> exists y, has m k y /\ x = ren p q y).
Proof.
  intros L. split.
  - intros (a & La & E). rewrite HV in E by assumption. exists (vtx m k a). split; [exists a; auto|congruence].
  - intros (y & (a & La & E) & ->). exists a. split; [exact La|]. rewrite HV by assumption. congruence.
Qed.

(** Two sets of points of which none has both ends, equal after the renaming. *)
Lemma ren_sets (F G : Z -> Prop) : (F p \/ ~ F p) -> (F q \/ ~ F q) -> (G p \/ ~ G p) -> (G q \/ ~ G q) -> ~ (F p /\ F q) -> ~ (G p /\ G q) ->
  (forall x, (exists y, F y /\ x = ren p q y) <-> (exists y, G y /\ x = ren p q y)) ->
  (forall x, F x <-> G x) \/
  (F p /\ ~ F q /\ G q /\ ~ G p /\ forall x, x <> p -> x <> q -> (F x <-> G x)) \/
  (F q /\ ~ F p /\ G p /\ ~ G q /\ forall x, x <> p -> x <> q -> (F x <-> G x)).
Proof.
  intros DFp DFq DGp DGq NF NG H.
  assert (O : forall x, x <> p -> x <> q -> (F x <-> G x)).
  { assert (O1 : forall (F G : Z -> Prop), (forall x, (exists y, F y /\ x = ren p q y) -> (exists y, G y /\ x = ren p q y)) -> forall x, x <> p -> x <> q -> F x -> G x).
    { intros F' G' H' x Np Nq Fx. destruct (H' x) as (y & Gy & E); [exists x; rewrite ren_o by exact Np; auto|].
      unfold ren in E. destruct (Z.eqb_spec y p); [contradiction|]. congruence. }
    intros x Np Nq. split; [apply (O1 F G); auto; apply H|apply (O1 G F); auto; apply H]. }
  assert (Q1 : (F p \/ F q) <-> (G p \/ G q)).
  { assert (O1 : forall (F : Z -> Prop), (F p \/ F q) <-> exists y, F y /\ q = ren p q y).
    { intros F'. split.
      - intros [X|X]; [exists p; rewrite ren_p; auto|exists q; rewrite ren_o by congruence; auto].
      - intros (y & Fy & E). unfold ren in E. destruct (Z.eqb_spec y p); [subst; auto|]. right. congruence. }
    rewrite !O1. apply H. }
  assert (S : ((F p <-> G p) /\ (F q <-> G q)) \/ (F p /\ ~ F q /\ G q /\ ~ G p) \/ (F q /\ ~ F p /\ G p /\ ~ G q)) by tauto.
  destruct S as [[S1 S2]|[S|S]].
  - left. intros x. destruct (Z.eq_dec x p) as [->|]; [exact S1|]. destruct (Z.eq_dec x q) as [->|]; [exact S2|]. apply O; assumption.
  - right. left. destruct S as (S1 & S2 & S3 & S4). auto 6.
  - right. right. destruct S as (S1 & S2 & S3 & S4). auto 6.
Qed.

Lemma has_dec k x : has m k x \/ ~ has m k x.
Proof. rewrite <- hasb_ok. destruct (hasb m k x); [left; reflexivity|right; discriminate]. Qed.
Lemma on_dec k i x : loc i -> on_face m k i x \/ ~ on_face m k i x.
Proof. intros Li. rewrite <- fpts_ok by exact Li. destruct (in_dec Z.eq_dec x (fpts m k i)); auto. Qed.

Lemma same3 k i l j : live m3 k -> live m3 l -> loc i -> loc j -> same_face m3 k i l j ->
  same_face m k i l j \/
  (on_face m k i p /\ ~ on_face m k i q /\ on_face m l j q /\ ~ on_face m l j p /\ forall x, x <> p -> x <> q -> (on_face m k i x <-> on_face m l j x)) \/
  (on_face m k i q /\ ~ on_face m k i p /\ on_face m l j p /\ ~ on_face m l j q /\ forall x, x <> p -> x <> q -> (on_face m k i x <-> on_face m l j x)).
Proof.
  intros Lk Ll Li Lj S. apply (ren_sets (on_face m k i) (on_face m l j)); try (apply on_dec; assumption).
  - intros [X Y]. apply (HLs k Lk); eapply on_has; eassumption.
  - intros [X Y]. apply (HLs l Ll); eapply on_has; eassumption.
  - intros x. rewrite <- !on3 by assumption. apply S.
Qed.

Lemma find_on s u v : live m s -> has m s u -> has m s v -> u <> v -> on_face m s (find m s v) u.
Proof.
  intros L Hu Hv N. destruct Hu as (a & La & Ea). destruct (find_loc m VO s v L Hv) as [Lv Ev].
  exists a. split; [exact La|]. split; [intros ->; congruence|exact Ea].
Qed.

(** A face all of whose points are in [s], without [v]. *)
Lemma face_in s v k i : live m s -> live m k -> loc i -> has m s v -> ~ on_face m k i v -> (forall x, on_face m k i x -> has m s x) -> same_face m k i s (find m s v).
Proof.
  intros Ls Lk Li Hv N H. destruct (find_loc m VO s v Ls Hv) as [Lv Ev].
  apply face_incl; try assumption. intros x Hx. apply find_on; auto. intros ->. contradiction.
Qed.

Lemma K1 k i l j : live m3 k -> loc i -> live m3 l -> loc j -> l <> k -> same_face m3 k i l j -> nb m3 k i = 4 * l + j.
Proof.
  intros Lk Li Ll Lj N S. pose proof (HLm k Lk) as Lk0. pose proof (HLm l Ll) as Ll0.
  destruct (same3 k i l j Lk Ll Li Lj S) as [S0|[(P1 & P2 & P3 & P4 & O)|(P1 & P2 & P3 & P4 & O)]].
  - pose proof (nb_same m k i l j VO A Lk0 Li Ll0 Lj N S0) as E. rewrite HB; [exact E|assumption|assumption| |].
    + rewrite E. apply enc_pos; [apply (live_pos m), Ll0|exact Lj].
    + rewrite E, dec_div by exact Lj. apply HL, Ll.
  - destruct (CT k i l j Lk0 Ll0 Li Lj P1 P3 O P2 P4) as (s & Ls & Hp & Hq & Hx).
    assert (Ss : sh m p q s) by (split; assumption).
    assert (Nk : s <> k) by (intros ->; exact (HLs k Lk Hp Hq)). assert (Nl : l <> s) by (intros <-; exact (HLs l Ll Hp Hq)).
    destruct (find_loc m VO s p Ls Hp) as [Lp Ep]. destruct (find_loc m VO s q Ls Hq) as [Lq Eq].
    pose proof (nb_same m k i s (find m s q) VO A Lk0 Li Ls Lq Nk (face_in s q k i Ls Lk0 Li Hq P2 Hx)) as E.
    assert (Hx2 : forall x, on_face m l j x -> has m s x).
    { intros x Ox. destruct (Z.eq_dec x q) as [->|Nq]; [exact Hq|]. destruct (Z.eq_dec x p) as [->|Np]; [exact Hp|]. apply Hx, O; assumption. }
    pose proof (nb_same m s (find m s p) l j VO A Ls Lp Ll0 Lj Nl (same_sym m _ _ _ _ (face_in s p l j Ls Ll0 Lj Hp P4 Hx2))) as E2.
    assert (NZ : nb m k i <> 0) by (rewrite E; apply enc_pos; [apply (live_pos m), Ls|exact Lq]).
    pose proof (HC k i Lk Li NZ) as C. cbv zeta in C. rewrite E in C. rewrite dec_div, dec_mod in C by exact Lq. destruct (C Ss) as [C1 _]. rewrite C1 by exact Eq. exact E2.
  - assert (O' : forall x, x <> p -> x <> q -> (on_face m l j x <-> on_face m k i x)) by (intros x X1 X2; symmetry; apply O; assumption).
    destruct (CT l j k i Ll0 Lk0 Lj Li P3 P1 O' P4 P2) as (s & Ls & Hp & Hq & Hx).
    assert (Ss : sh m p q s) by (split; assumption).
    assert (Nk : s <> k) by (intros ->; exact (HLs k Lk Hp Hq)). assert (Nl : l <> s) by (intros <-; exact (HLs l Ll Hp Hq)).
    destruct (find_loc m VO s p Ls Hp) as [Lp Ep]. destruct (find_loc m VO s q Ls Hq) as [Lq Eq].
    assert (Hx2 : forall x, on_face m k i x -> has m s x).
    { intros x Ox. destruct (Z.eq_dec x q) as [->|Nq]; [exact Hq|]. destruct (Z.eq_dec x p) as [->|Np]; [exact Hp|]. apply Hx, O; assumption. }
    pose proof (nb_same m k i s (find m s p) VO A Lk0 Li Ls Lp Nk (face_in s p k i Ls Lk0 Li Hp P2 Hx2)) as E.
    pose proof (nb_same m s (find m s q) l j VO A Ls Lq Ll0 Lj Nl (same_sym m _ _ _ _ (face_in s q l j Ls Ll0 Lj Hq P4 Hx))) as E2.
    assert (NZ : nb m k i <> 0) by (rewrite E; apply enc_pos; [apply (live_pos m), Ls|exact Lp]).
    pose proof (HC k i Lk Li NZ) as C. cbv zeta in C. rewrite E in C. rewrite dec_div, dec_mod in C by exact Lp. destruct (C Ss) as [_ C1]. rewrite C1 by exact Ep. exact E2.
Qed.

Lemma same_3 k i l j : live m3 k -> live m3 l -> same_face m k i l j -> same_face m3 k i l j.
Proof.
  intros Lk Ll S x. rewrite !on3 by assumption. split; intros (y & Hy & ->); exists y; split; auto; apply S, Hy.
Qed.

(** Two faces of a removed tetrahedron become one. *)
Lemma merged s k i l j u v : live m s -> has m s u -> has m s v -> ((u = p /\ v = q) \/ (u = q /\ v = p)) -> live m3 k -> live m3 l -> 
  same_face m k i s (find m s u) -> same_face m l j s (find m s v) -> same_face m3 k i l j /\ l <> k.
Proof.
  intros Ls Hu Hv UV Lk Ll S1 S2. assert (Nuv : u <> v) by (intros ->; destruct UV as [[? ?]|[? ?]]; congruence).
  destruct (find_loc m VO s u Ls Hu) as [Lu Eu]. destruct (find_loc m VO s v Ls Hv) as [Lv Ev].
  assert (Ruv : ren p q u = ren p q v) by (destruct UV as [[-> ->]|[-> ->]]; rewrite ren_p, ren_o by congruence; reflexivity).
  assert (Ku : on_face m k i v) by (apply S1, find_on; auto). assert (Lu' : on_face m l j u) by (apply S2, find_on; auto).
  split.
  - assert (G : forall x a b, live m s -> has m s a -> has m s b -> a <> b -> ren p q a = ren p q b -> on_face m s (find m s a) x -> exists y, on_face m s (find m s b) y /\ ren p q x = ren p q y).
    { intros x a b _ Ha Hb N R (c & Lc & Nc & Ec). destruct (Z.eq_dec x b) as [->|Nx].
      - exists a. split; [apply find_on; assumption|congruence].
      - exists x. split; [|reflexivity]. apply find_on; auto. exists c. auto. }
    intros x. rewrite !on3 by assumption. split; intros (y & Hy & ->).
    + apply S1 in Hy. destruct (G y u v Ls Hu Hv Nuv Ruv Hy) as (z & Hz & R). exists z. split; [apply S2, Hz|exact R].
    + apply S2 in Hy. destruct (G y v u Ls Hv Hu (not_eq_sym Nuv) (eq_sym Ruv) Hy) as (z & Hz & R). exists z. split; [apply S1, Hz|exact R].
  - intros ->. apply on_has in Ku, Lu'. destruct UV as [[-> ->]|[-> ->]]; [exact (HLs k Lk Lu' Ku)|exact (HLs k Lk Ku Lu')].
Qed.

Lemma K2 k i : live m3 k -> loc i -> nb m3 k i <> 0 -> exists l j, live m3 l /\ loc j /\ nb m3 k i = 4 * l + j /\ l <> k /\ same_face m3 k i l j.
Proof.
  intros Lk Li NZ3. pose proof (HLm k Lk) as Lk0.
  assert (NZ : nb m k i <> 0) by (intros E; apply NZ3, HZ; assumption).
  destruct (nb_dec m k i VO A Lk0 Li NZ) as (Ls & Lj & B & Ns & S). pose proof (HC k i Lk Li NZ) as C. cbv zeta in C. pose proof (HB k i Lk Li NZ) as HB'.
  assert (DM : nb m k i = 4 * (nb m k i / 4) + nb m k i mod 4) by (apply Z.div_mod; lia).
  set (s := nb m k i / 4) in *. set (j := nb m k i mod 4) in *.
  assert (D : sh m p q s \/ ~ sh m p q s) by (unfold sh; destruct (has_dec s p), (has_dec s q); tauto).
  destruct D as [Ss|Ns'].
  - pose proof Ss as [Hp Hq]. destruct (C Ss) as [C1 C2].
    destruct (find_loc m VO s p Ls Hp) as [Lp Ep]. destruct (find_loc m VO s q Ls Hq) as [Lq Eq].
    assert (CASES : vtx m s j = q \/ vtx m s j = p).
    { destruct (Z.eq_dec (vtx m s j) q); [auto|]. destruct (Z.eq_dec (vtx m s j) p); [auto|]. exfalso.
      apply (HLs k Lk); apply (on_has m k i), S; [rewrite <- Ep|rewrite <- Eq]; apply on_other; try assumption; intros E; congruence. }
    assert (G : forall u v, ((u = p /\ v = q) \/ (u = q /\ v = p)) -> has m s u -> has m s v -> vtx m s j = u -> nb m3 k i = nb m s (find m s v) ->
      exists l j0, live m3 l /\ loc j0 /\ nb m3 k i = 4 * l + j0 /\ l <> k /\ same_face m3 k i l j0).
    { intros u v UV Hu Hv Eu E3. destruct (find_loc m VO s v Ls Hv) as [Lv Ev].
      assert (Ej : find m s u = j) by (rewrite <- Eu; apply find_at; assumption).
      assert (NZs : nb m s (find m s v) <> 0) by congruence.
      destruct (nb_dec m s (find m s v) VO A Ls Lv NZs) as (Ll & Lj' & B' & Nl & S').
      assert (DM' : nb m s (find m s v) = 4 * (nb m s (find m s v) / 4) + nb m s (find m s v) mod 4) by (apply Z.div_mod; lia).
      assert (Out : ~ sh m p q (nb m s (find m s v) / 4)).
      { apply (outer m VO A NT p q s); [exact Ls|exact Ss|exact Lv| |exact NZs]. rewrite Ev. destruct UV as [[-> ->]|[-> ->]]; auto. }
      set (l := nb m s (find m s v) / 4) in *. set (j0 := nb m s (find m s v) mod 4) in *.
      assert (Ll3 : live m3 l) by (apply HL; auto).
      destruct (merged s k i l j0 u v Ls Hu Hv UV Lk Ll3) as [M1 M2]; [rewrite Ej; exact S|apply same_sym; exact S'|].
      exists l, j0. split; [exact Ll3|]. split; [exact Lj'|]. split; [congruence|]. auto. }
    destruct CASES as [E|E].
    + apply (G q p); auto.
    + apply (G p q); auto.
  - exists s, j. assert (L3 : live m3 s) by (apply HL; auto). split; [exact L3|]. split; [exact Lj|]. split; [rewrite HB' by exact Ns'; exact DM|].
    split; [exact Ns|]. apply same_3; assumption.
Qed.

Lemma adjacent3 : adjacent m3.
Proof. apply adjacent_by; [exact V3|exact K1|exact K2]. Qed.

Lemma tw_case k n : live m3 k -> live m3 n -> has m k p -> ~ has m k q -> has m n q -> ~ has m n p ->
  (forall x, x <> p -> x <> q -> (has m k x <-> has m n x)) -> False.
Proof.
  intros Lk Ln Kp Kq Nq Np O. apply (TW k n). pose proof (HLm k Lk) as Lk0. pose proof (HLm n Ln) as Ln0.
  destruct (find_loc m VO k p Lk0 Kp) as [Lp Ep]. destruct (find_loc m VO n q Ln0 Nq) as [Lq Eq].
  split; [exact Lk0|]. split; [exact Ln0|]. split; [intros ->; contradiction|]. split; [exact Kp|]. split; [exact Kq|]. split; [exact Nq|].
  exists (find m k p), (find m n q). split; [exact Lp|]. split; [exact Lq|]. split; [exact Ep|]. split; [exact Eq|].
  apply face_in; try assumption.
  - intros Ox. apply on_has in Ox. contradiction.
  - intros x Ox. assert (Hx : has m k x) by (apply (on_has _ _ _ _ Ox)). apply O; [|intros ->; contradiction|exact Hx].
    intros ->. apply (not_on m k (find m k p) VO Lk0 Lp). rewrite Ep. exact Ox.
Qed.

Lemma no_twins3 : no_twins m3.
Proof.
  intros k n Lk Ln H.
  destruct (ren_sets (has m k) (has m n)) as [E|[(P1 & P2 & P3 & P4 & O)|(P1 & P2 & P3 & P4 & O)]]; try apply has_dec.
  - intros [X Y]. exact (HLs k Lk X Y).
  - intros [X Y]. exact (HLs n Ln X Y).
  - intros x. rewrite <- !has3 by assumption. apply H.
  - apply NT; [apply HLm, Lk|apply HLm, Ln|exact E].
  - exfalso. apply (tw_case k n); assumption.
  - exfalso. apply (tw_case n k); try assumption. intros x X1 X2. symmetry. apply O; assumption.
Qed.
End Out.
