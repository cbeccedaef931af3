(** Property C68: the compaction of the meshes of Mmg2d; C69: its free cells. *)
From Coq Require Import ZArith List Lia Bool Permutation.
From Verif Require Import CBase SurfModel Tria2 Tria2Edges PropsTria2 Pack2 Pack2Proofs Pack2Tris.
Import ListNotations.
Open Scope Z_scope.

(** ** Specification *)

(** [k] is a vertex of the mesh: it has not the mark of the removed vertices. *)
Definition vertex (s : mesh) (k : Z) : Prop := 1 <= k <= m_np s /\ w_tag (aget (m_w s) k) < 2 ^ 15.
(** [k] is a triangle of the mesh. *)
Definition triangle (s : mesh) (k : Z) : Prop := 1 <= k <= m_nt s /\ t_v (aget (m_a s) k) 0 <> 0.

(** The meshes given to [MMG2D_pack]: the sizes of the arrays, adjacencies that fit,
    triangles made of vertices of the mesh. *)
Record packable (s : mesh) : Prop := {
  g_np : 0 <= m_np s <= m_npmax s;
  g_w : alen (m_w s) = m_npmax s + 1;
  g_tag : forall k, 1 <= k <= m_np s -> 0 <= w_tag (aget (m_w s) k);
  g_mesh : mesh2 (m_nt s) (m_ntmax s) (m_a s);
  g_adj : alen (m_adj s) = 3 * m_ntmax s + 5;
  g_fit : fits2 (m_nt s) (m_a s) (m_adj s);
  g_vert : forall k i, triangle s k -> 0 <= i < 3 -> vertex s (t_v (aget (m_a s) k) i)
}.

(** One value array for each vertex. *)
Definition sol_fits (s : mesh) (o : option sol2) : Prop :=
  match o with None => True | Some x => 0 < s_size x /\ alen (s_m x) = s_size x * (m_npmax s + 1) end.

(** [f] numbers the [k] that satisfy [P] from 1 to [n], in the same order. *)
Record numbers (P : Z -> Prop) (n : Z) (f : Z -> Z) : Prop := {
  n_pos : 0 <= n;
  n_range : forall k, P k -> 1 <= f k <= n;
  n_order : forall k l, P k -> P l -> k < l -> f k < f l;
  n_onto : forall j, 1 <= j <= n -> exists k, P k /\ f k = j
}.

(** The triangle [u] is [t] with its vertices renumbered. *)
Definition renamed (f : Z -> Z) (t u : tri) : Prop :=
  forall i, 0 <= i < 3 -> t_v u i = f (t_v t i) /\ t_edg u i = t_edg t i /\ released (t_tag t i) (t_tag u i).

(** The values follow the vertices. *)
Definition follows (s : mesh) (f : Z -> Z) (o o' : option sol2) : Prop :=
  match o, o' with
  | None, None => True
  | Some x, Some y => s_size y = s_size x /\
      forall k i, vertex s k -> 0 <= i < s_size x -> aget (s_m y) (f k * s_size x + i) = aget (s_m x) (k * s_size x + i)
  | _, _ => False
  end.

(** [s'] is [s] packed: [f] numbers the vertices and [g] the triangles. *)
Record packed (opn : bool) (s s' : mesh) (f g : Z -> Z) : Prop := {
  p_vert : numbers (vertex s) (m_np s') f;
  p_tria : numbers (triangle s) (m_nt s') g;
  p_all : forall k, 1 <= k <= m_np s' -> vertex s' k;
  p_alt : forall k, 1 <= k <= m_nt s' -> triangle s' k;
  p_dat : forall k, vertex s k -> w_dat (aget (m_w s') (f k)) = w_dat (aget (m_w s) k) /\
            released (w_tag (aget (m_w s) k)) (w_tag (aget (m_w s') (f k))) /\ w_tmp (aget (m_w s') (f k)) = 0;
  p_tri : forall k, triangle s k -> renamed f (aget (m_a s) k) (aget (m_a s') (g k)) /\
            t_ref (aget (m_a s') (g k)) = t_ref (aget (m_a s) k);
  (* neighbours stay neighbours *)
  p_nil : forall k i, triangle s k -> 0 <= i < 3 -> entry (m_adj s) k i = 0 -> entry (m_adj s') (g k) i = 0;
  p_ngb : forall k i l j, triangle s k -> 0 <= i < 3 -> 0 <= j < 3 -> entry (m_adj s) k i = 3 * l + j -> l <> 0 ->
            entry (m_adj s') (g k) i = 3 * g l + j;
  (* the cells after the last triangle are not triangles *)
  p_end : forall k, m_nt s' < k <= m_nt s -> t_v (aget (m_a s') k) 0 = 0;
  p_out : forall k i, m_nt s' < k -> 0 <= i < 3 -> entry (m_adj s') k i = 0;
  (* sizes *)
  p_max : m_npmax s' = m_npmax s /\ m_ntmax s' = m_ntmax s;
  p_len : alen (m_w s') = m_npmax s + 1 /\ alen (m_a s') = m_ntmax s + 1 /\ alen (m_adj s') = 3 * m_ntmax s + 5
}.

(** The lists of free cells after the compaction of [s] in [s']. *)
Record listed (s s' : mesh) : Prop := {
  l_np : m_npnil s' = if m_np s' <? m_npmax s - 3 then m_np s' + 1 else 0;
  l_nt : m_nenil s' = if m_nt s' <? m_ntmax s - 3 then m_nt s' + 1 else 0;
  l_tmp : m_np s' < m_npmax s - 3 -> forall k, m_np s' < k <= m_npmax s - 2 -> w_tmp (aget (m_w s') k) = k + 1;
  l_v2 : m_nt s' < m_ntmax s - 3 -> forall k, m_nt s' < k <= m_ntmax s - 2 -> t_v (aget (m_a s') k) 2 = k + 1;
  l_tmp' : forall k, m_np s < k -> m_npmax s - 2 < k -> w_tmp (aget (m_w s') k) = w_tmp (aget (m_w s) k);
  l_v2' : forall k, m_nt s < k -> m_ntmax s - 2 < k -> t_v (aget (m_a s') k) 2 = t_v (aget (m_a s) k) 2
}.

(** The edge [e] is the edge [i] of [t], with its ends renumbered by [f]. *)
Definition carries_as (f : Z -> Z) (t : tri) (i : Z) (e : edge) : Prop :=
  Permutation [e_a e; e_b e] (map f (ends t i)) /\ e_ref e = t_edg t i /\ released (t_tag t i) (e_tag e).

(** ** Lemmas *)

Lemma ends_in t i x : In x (ends t i) -> exists j, 0 <= j < 3 /\ x = t_v t j.
Proof.
  unfold ends. intros H. apply in_map_iff in H. destruct H as (j & <- & H). apply filter_In in H. destruct H as [H _].
  exists j. split; [|reflexivity]. cbn in H. lia.
Qed.

Lemma ends_map f t u i : (forall j, 0 <= j < 3 -> t_v u j = f (t_v t j)) -> ends u i = map f (ends t i).
Proof.
  intros H. unfold ends. rewrite map_map. apply map_ext_in. intros j Hj. apply filter_In in Hj. destruct Hj as [Hj _].
  apply H. cbn in Hj. lia.
Qed.

Lemma ends_two t i : 0 <= i < 3 -> exists x y, ends t i = [x; y].
Proof. intros H. assert (i = 0 \/ i = 1 \/ i = 2) as C by lia. destruct C as [->|[->| ->]]; cbn; eauto. Qed.

Lemma perm_map_inv (f : Z -> Z) x y u v : (forall p q, In p [x; y] -> In q [u; v] -> f p = f q -> p = q) ->
  Permutation (map f [x; y]) (map f [u; v]) -> Permutation [x; y] [u; v].
Proof.
  intros H P. cbn [map] in P. apply perm2 in P. apply perm2. destruct P as [[A B]|[A B]]; [left|right]; split; apply H; cbn; auto.
Qed.

Lemma vok_vertex s k : 1 <= k <= m_np s -> (w_ok (aget (m_w s) k) = true <-> vertex s k).
Proof.
  intros H. unfold vertex, w_ok. change (2 ^ 15) with G_NUL. rewrite Z.ltb_lt. tauto.
Qed.

Lemma eok_triangle s k : packable s -> 1 <= k <= m_nt s -> (t_eok (aget (m_a s) k) = true <-> triangle s k).
Proof.
  intros G H. unfold triangle, t_eok. rewrite Z.ltb_lt. pose proof (g_mesh s G) as (_ & _ & V). split.
  - intros A. split; [exact H | lia].
  - intros [_ A]. apply (V k H A 0). lia.
Qed.

Lemma numbers_rank (P : Z -> bool) (Q : Z -> Prop) n : 0 <= n -> (forall k, Q k <-> 1 <= k <= n /\ P k = true) -> numbers Q (rank P n) (rank P).
Proof.
  intros H0 H. split.
  - apply rank_bounds. exact H0.
  - intros k Hk. apply H in Hk. destruct Hk as [A B]. pose proof (rank_mono P k n ltac:(lia)).
    pose proof (rank_lt P 0 k ltac:(lia) B) as X. rewrite rank_0 in X. lia.
  - intros k l Hk Hl L. apply H in Hk, Hl. apply rank_lt; [lia | tauto].
  - intros j Hj. destruct (rank_onto P n j H0 Hj) as (k & A & B & C). exists k. split; [apply H; auto | exact C].
Qed.

Lemma numbers_inj P n f k l : numbers P n f -> P k -> P l -> f k = f l -> k = l.
Proof.
  intros N Hk Hl E. destruct (Z.lt_total k l) as [C|[C|C]]; [|exact C|].
  - pose proof (n_order _ _ _ N k l Hk Hl C). lia.
  - pose proof (n_order _ _ _ N l k Hl Hk C). lia.
Qed.

(** ** The mesh returned *)

Theorem pack_packs : forall opn s sol met, packable s -> sol_fits s sol -> sol_fits s met ->
  exists s' sol' met' f g, pack2 opn s sol met = Ret (s', sol', met') /\ packed opn s s' f g /\ listed s s' /\
    follows s f sol sol' /\ follows s f met met' /\
    (forall x y, sol = Some x -> sol' = Some y -> s_np y = m_np s') /\
    exists src,
      (forall j, 1 <= j <= m_na s' -> side (m_nt s) (m_a s) (fst (src j)) (snd (src j)) /\
         wanted opn (m_a s) (m_adj s) (fst (src j)) (snd (src j)) /\
         carries_as f (aget (m_a s) (fst (src j))) (snd (src j)) (aget (m_ed s') j)) /\
      (forall j j', 1 <= j <= m_na s' -> 1 <= j' <= m_na s' -> src j = src j' -> j = j') /\
      (forall k i, side (m_nt s) (m_a s) k i -> wanted opn (m_a s) (m_adj s) k i -> exists j, 1 <= j <= m_na s' /\ src j = (k, i)).
Proof.
  intros opn s sol met G S1 S2. pose proof G as [Hnp Hw Htag HM HL HF HV]. pose proof HM as (M1 & M2 & M3).
  set (np := m_np s) in *. set (nt := m_nt s) in *. set (a := m_a s) in *. set (adj := m_adj s) in *.
  set (PV := fun k => w_ok (aget (m_w s) k)). set (PT := fun k => t_eok (aget a k)).
  set (f := rank PV). set (g := rank PT).
  destruct (mark2_ok np (m_w s) ltac:(lia) ltac:(lia)) as (w1 & nc & E1 & L1 & W1). change (U (m_w s)) with PV in W1. change (RV (m_w s)) with f in E1, W1.
  destruct (edges_made opn nt (m_ntmax s) a adj HM HL HF) as (b & na & ed & src & E2 & Hna & Q1 & Q2 & Q3 & Q4 & Q5).
  destruct (pack_ok opn nt (m_ntmax s) adj a M1 M2 HL (entry_range nt a adj HF)) as (b' & na' & ed' & E2' & _ & Lb & G2 & _ & Led).
  rewrite E2 in E2'. injection E2' as <- <- <-.
  (* vertices after the first loop *)
  assert (W1u : forall k, vertex s k -> aget w1 k = marked (aget (m_w s) k) (f k)).
  { intros k Vk. pose proof Vk as [A B]. fold np in A. rewrite W1. destruct (Z.leb_spec 1 k), (Z.leb_spec k np); try lia.
    replace (PV k) with true; [reflexivity|]. symmetry. apply vok_vertex; assumption. }
  assert (OK1 : forall k, 1 <= k <= np -> w_ok (aget w1 k) = PV k).
  { intros k Hk. rewrite W1. destruct (Z.leb_spec 1 k), (Z.leb_spec k np); try lia. cbn [andb]. destruct (PV k) eqn:Ek; [|exact Ek].
    unfold marked. apply (thaw_ok (mkVt (w_tag (aget (m_w s) k)) (f k) (w_dat (aget (m_w s) k)))); [cbn; apply Htag; assumption | exact Ek]. }
  assert (FR : forall k, 1 <= k <= np -> rank (fun k => w_ok (aget w1 k)) k = f k).
  { intros k Hk. apply rank_ext. intros l Hl. apply OK1. lia. }
  assert (FR' : rank (fun k => w_ok (aget w1 k)) np = f np).
  { apply rank_ext. intros l Hl. apply OK1. lia. }
  assert (NV : numbers (vertex s) (f np) f).
  { apply numbers_rank; [lia|]. intros k. split.
    - intros Vk. pose proof Vk as [A _]. split; [exact A|]. apply vok_vertex; assumption.
    - intros [A B]. apply vok_vertex; assumption. }
  assert (NT : numbers (triangle s) (g nt) g).
  { apply numbers_rank; [lia|]. intros k. split.
    - intros Tk. pose proof Tk as [A _]. split; [exact A|]. apply eok_triangle; assumption.
    - intros [A B]. apply eok_triangle; assumption. }
  assert (Bv : forall k i, t_v (aget b k) i = t_v (aget a k) i) by (intros k i; apply Q4).
  assert (Bt : forall k, t_eok (aget b k) = PT k) by (intros k; unfold t_eok, PT, t_eok; rewrite Bv; reflexivity).
  (* ends of the edges *)
  assert (EV : forall j, 1 <= j <= na -> vertex s (e_a (aget ed j)) /\ vertex s (e_b (aget ed j))).
  { intros j Hj. destruct (Q1 j Hj) as ((A1 & A2 & A3) & _ & (N & _)). unfold names in N.
    assert (I : forall x, In x [e_a (aget ed j); e_b (aget ed j)] -> vertex s x).
    { intros x Hx. apply (Permutation_in x N) in Hx. apply ends_in in Hx. destruct Hx as (i & Hi & ->).
      apply HV; [split; assumption | assumption]. }
    split; apply I; cbn; auto. }
  destruct (edges_ends_ok na w1 ed Hna ltac:(intros; rewrite Led; lia)) as (ed2 & E3 & Ed2).
  { intros j Hj. destruct (EV j Hj) as [[A _] [B _]]. fold np in A, B. lia. }
  (* triangles *)
  assert (GT : forall k, rank (fun k => t_eok (aget b k)) k = g k) by (intros k; apply rank_ext; intros l _; apply Bt).
  assert (LV : forall c, live nt b c <-> 3 <= c < 3 * nt + 3 /\ side nt a (c / 3) (c mod 3)).
  { intros c. unfold live, T. rewrite Bt. split.
    - intros [A B]. split; [exact A|]. pose proof (code3 c). assert (Hk : 1 <= c / 3 <= nt) by lia. split; [exact Hk|].
      split; [|lia]. apply (eok_triangle s (c / 3) G Hk) in B. apply B.
    - intros [A (B1 & B2 & B3)]. split; [exact A|]. apply (eok_triangle s (c / 3) G B1). split; assumption. }
  assert (AE : forall k i, A0 adj (3 * k + i) = entry adj k i) by (intros k i; unfold A0, entry; f_equal; lia).
  assert (AC : forall c, A0 adj c = entry adj (c / 3) (c mod 3)) by (intros c; rewrite <- AE; f_equal; apply code3).
  destruct (pack_tris_ok nt (m_ntmax s) w1 b adj M1 ltac:(rewrite Lb; exact M2) HL) as (a2 & adj2 & nbl & E4 & L4 & D4 & T4 & Z4 & O4).
  { intros k Hk B. rewrite Bv. destruct (Z.eq_dec (t_v (aget a k) 0) 0) as [E|N]; [exact E|]. exfalso.
    assert (t_eok (aget a k) = true) as X by (apply (eok_triangle s k G Hk); split; assumption). rewrite Bt in B. unfold PT in B. congruence. }
  { intros k i Hk B Hi. rewrite Bt in B. apply (eok_triangle s k G Hk) in B. pose proof (HV k i B Hi) as V. rewrite Bv. fold a in V.
    pose proof V as [A _]. fold np in A. split; [lia|]. rewrite W1u by exact V. cbn [marked w_tmp]. pose proof (n_range _ _ _ NV _ V). lia. }
  { intros c Lc. apply LV in Lc. destruct Lc as [R Sd]. destruct (fit_sym _ _ _ HF _ _ Sd) as [Z0|(l & j & Sl & Nl & X1 & X2 & _)].
    - left. rewrite AC. exact Z0.
    - right. rewrite AC, X1. destruct Sl as (B1 & B2 & B3). destruct (div3 l j B3) as [Dl Ml].
      split; [apply LV; split; [lia|]; rewrite Dl, Ml; split; [assumption | split; assumption]|].
      pose proof (code3 c) as [Cc _]. split.
      + intros Ec. apply Nl. rewrite <- Ec, Dl, Ml. reflexivity.
      + rewrite AE, X2. symmetry. exact Cc. }
  { intros c Hc Nc. rewrite AC. apply (fit_out _ _ _ HF); pose proof (code3 c); [lia | lia|].
    intros Sd. apply Nc. apply LV. split; [|exact Sd]. destruct Sd as (B1 & _). lia. }
  change (RT b) with (rank (fun k => t_eok (aget b k))) in E4, T4, Z4. rewrite GT in E4, Z4.
  (* solutions *)
  assert (PS : forall o, sol_fits s o -> exists o', pack_osol np w1 o = Ret o' /\ follows s f o o' /\
     match o, o' with Some x, Some y => s_np y = s_np x | _, _ => True end).
  { intros [x|] Hx; [|exists None; cbn; auto]. destruct Hx as [X1 X2]. cbn [pack_osol].
    destruct (pack_vals_ok np (s_size x) w1 (s_m x) ltac:(lia) ltac:(lia) X1) as (m & n & E & _ & C).
    { rewrite X2, (Z.mul_comm (s_size x)). apply Z.mul_le_mono_nonneg_r; lia. }
    rewrite E. cbn [bind]. eexists. split; [reflexivity|]. split; [|reflexivity]. split; [reflexivity|].
    cbn [s_m]. intros k i Vk Hi. pose proof Vk as [A _]. rewrite <- (FR k A). apply C; [exact A | | exact Hi].
    rewrite (OK1 k A). apply vok_vertex; assumption. }
  destruct (PS sol S1) as (sol1 & E5 & F5 & _). destruct (PS met S2) as (met1 & E6 & F6 & _).
  (* vertices *)
  destruct (pack_verts_ok np w1 ltac:(lia) ltac:(lia)) as (w2 & nbl2 & E7 & L7 & V7 & O7).
  { intros k Hk B. rewrite (OK1 k Hk) in B. rewrite FR by assumption. rewrite W1u by (apply vok_vertex; assumption). reflexivity. }
  rewrite FR' in E7. pose proof (rank_bounds PV np ltac:(lia)) as B7. fold f in B7. pose proof (rank_bounds PT nt ltac:(lia)) as B8. fold g in B8.
  destruct (free_verts_ok (f np) (m_npmax s) w2 ltac:(lia) ltac:(lia) ltac:(lia)) as (w3 & E8 & L8 & A8 & _ & C8).
  destruct (free_tris_ok (g nt) (m_ntmax s) a2 ltac:(lia) ltac:(lia) ltac:(lia)) as (a3 & E9 & L9 & A9 & C9 & G9).
  exists (mkMesh (f np) (m_npmax s) (if f np <? m_npmax s - 3 then f np + 1 else 0) w3 (g nt) (m_ntmax s)
            (if g nt <? m_ntmax s - 3 then g nt + 1 else 0) a3 adj2 na ed2).
  exists (match sol1 with None => None | Some x => Some (mkSol (s_size x) (f np) (s_m x)) end), met1, f, g.
  split.
  { unfold pack2. fold np nt a adj. rewrite E1. cbn [bind]. rewrite E2. cbn [bind]. rewrite E3. cbn [bind]. rewrite E4. cbn [bind].
    rewrite E5. cbn [bind]. rewrite E6. cbn [bind]. rewrite E7. cbn [bind]. rewrite E8. cbn [bind]. rewrite E9. cbn [bind]. reflexivity. }
  (* the records of the result *)
  assert (W3 : forall k, vertex s k -> aget w3 (f k) = mkVt (thaw (w_tag (aget (m_w s) k))) 0 (w_dat (aget (m_w s) k))).
  { intros k Vk. pose proof Vk as [A _]. fold np in A. pose proof (n_range _ _ _ NV k Vk) as R. rewrite A8 by exact R.
    rewrite <- (FR k A). rewrite V7; [|exact A | rewrite (OK1 k A); apply vok_vertex; assumption].
    rewrite W1u by assumption. reflexivity. }
  assert (A3 : forall k, triangle s k -> moved w1 (aget b k) (aget a3 (g k))).
  { intros k Tk. pose proof Tk as [A _]. fold nt in A. rewrite A9 by (apply (n_range _ _ _ NT k Tk)). rewrite <- GT. apply T4; [exact A|].
    unfold T. rewrite Bt. apply eok_triangle; assumption. }
  assert (V3 : forall k i, triangle s k -> 0 <= i < 3 -> t_v (aget a3 (g k)) i = f (t_v (aget a k) i)).
  { intros k i Tk Hi. destruct (A3 k Tk) as (X & _). rewrite X by assumption. rewrite Bv. rewrite W1u by (apply HV; assumption). reflexivity. }
  split; [|split; [|split; [|split; [|split]]]].
  - split; cbn [m_np m_npmax m_npnil m_w m_nt m_ntmax m_nenil m_a m_adj m_na m_ed]; fold np nt a adj.
    + exact NV.
    + exact NT.
    + intros j Hj. destruct (n_onto _ _ _ NV j Hj) as (k & Vk & <-). split; [exact Hj|]. cbn [m_w]. rewrite W3 by assumption.
      pose proof Vk as [A B]. fold np in A.
      pose proof (thaw_ok (aget (m_w s) k) (Htag k A) (proj2 (vok_vertex s k A) Vk)) as X. apply Z.ltb_lt in X. exact X.
    + intros j Hj. destruct (n_onto _ _ _ NT j Hj) as (k & Tk & <-). split; [exact Hj|]. cbn [m_a]. rewrite V3 by (try assumption; lia).
      pose proof (n_range _ _ _ NV _ (HV k 0 Tk ltac:(lia))). fold a in H. lia.
    + intros k Vk. rewrite W3 by assumption. cbn [w_dat w_tag w_tmp]. split; [reflexivity|]. split; [apply thaw_released | reflexivity].
    + intros k Tk. pose proof Tk as [A B]. destruct (A3 k Tk) as (_ & X2 & X3 & X4). split.
      * intros i Hi. split; [apply V3; assumption|]. split; [rewrite X3; apply Q4|]. rewrite X2. apply Q5. split; [exact A|]. split; [exact B | exact Hi].
      * rewrite X4. apply Q4.
    + intros k i Tk Hi Z0. destruct D4 as (_ & D4 & _). pose proof Tk as [A B]. fold nt in A. destruct (div3 k i Hi) as [Dk Mk].
      assert (Lc : live nt b (3 * k + i)). { apply LV. split; [clear - A Hi; lia|]. rewrite Dk, Mk. split; [exact A|]. split; [exact B | exact Hi]. }
      pose proof (D4 _ Lc) as X. rewrite AE, Z0, Z.eqb_refl in X. unfold at_ in X. destruct (Z.ltb_spec (3 * k + i) (3 * (nt + 1))); [|lia].
      rewrite Dk, Mk in X. change (RT b k) with (rank (fun k => t_eok (aget b k)) k) in X. rewrite GT in X.
      unfold entry. rewrite <- X. f_equal. lia.
    + intros k i l j Tk Hi Hj El Nl. destruct D4 as (_ & D4 & _). pose proof Tk as [A B]. fold nt in A. destruct (div3 k i Hi) as [Dk Mk].
      assert (Lc : live nt b (3 * k + i)). { apply LV. split; [clear - A Hi; lia|]. rewrite Dk, Mk. split; [exact A|]. split; [exact B | exact Hi]. }
      pose proof (D4 _ Lc) as X. rewrite AE, El in X. destruct (Z.eqb_spec (3 * l + j) 0); [exfalso; clear - Nl Hj e; lia|].
      destruct (fit_sym _ _ _ HF k i) as [Z0|(l' & j' & (B1 & _ & B3) & _ & X1 & _)]; [split; [exact A|]; split; [exact B | exact Hi] | exfalso; rewrite Z0 in El; clear - El Nl Hj; lia|].
      assert (l' = l) as -> by (clear - X1 El B3 Hj; lia). destruct (div3 l j Hj) as [Dl Ml].
      unfold at_ in X. destruct (Z.ltb_spec (3 * k + i) (3 * (nt + 1))); [|exfalso; clear - A Hi H; lia]. destruct (Z.ltb_spec (3 * l + j) (3 * (nt + 1))); [|exfalso; clear - B1 Hj H0; lia].
      rewrite Dk, Mk, Dl, Ml in X. change (RT b) with (rank (fun k => t_eok (aget b k))) in X. rewrite !GT in X.
      unfold entry. rewrite <- X. f_equal. lia.
    + intros k Hk. rewrite C9 by lia. apply Z4. lia.
    + intros k i Hk Hi. destruct D4 as (_ & _ & D4). unfold entry. replace (3 * (k - 1) + 1 + i) with (3 * k + i - 2) by (clear; lia).
      apply D4; [clear - Hk Hi B8; lia|]. intros c Lc. unfold at_. pose proof Lc as [Lc1 Lc2]. destruct (Z.ltb_spec c (3 * (nt + 1))) as [Lt|Ge]; [|clear - Lc1 Ge; lia].
      change (RT b) with (rank (fun k => t_eok (aget b k))). rewrite GT.
      pose proof (code3 c) as [_ Cm]. pose proof (live_k nt b c Lc) as K. pose proof (rank_mono PT (c / 3) nt ltac:(clear - K; lia)) as Mo. fold g in Mo.
      clear - Cm Mo Hk Hi. lia.
    + split; reflexivity.
    + destruct D4 as (D4 & _). repeat split; [rewrite L8, L7, L1; exact Hw | rewrite L9, L4, Lb; exact M2 | rewrite D4; exact HL].
  - split; cbn [m_np m_npmax m_npnil m_w m_nt m_ntmax m_nenil m_a m_adj m_na m_ed]; fold np nt a adj.
    + reflexivity.
    + reflexivity.
    + intros Lt k Hk. rewrite C8 by (clear - Hk; lia). destruct (Z.ltb_spec (f np) (m_npmax s - 3)), (Z.leb_spec k (m_npmax s - 2)); try (exfalso; clear - Lt Hk H H0; lia). reflexivity.
    + intros Lt k Hk. rewrite G9 by (clear - Hk; lia). destruct (Z.ltb_spec (g nt) (m_ntmax s - 3)), (Z.leb_spec k (m_ntmax s - 2)); try (exfalso; clear - Lt Hk H H0; lia). reflexivity.
    + intros k H1 H2. rewrite C8 by (clear - B7 H1; lia). destruct (Z.leb_spec k (m_npmax s - 2)); [exfalso; clear - H2 H; lia|]. rewrite andb_false_r.
      rewrite O7 by exact H1. rewrite W1. destruct (Z.leb_spec k np); [exfalso; clear - H1 H0; lia|]. rewrite andb_false_r. reflexivity.
    + intros k H1 H2. rewrite G9 by (clear - B8 H1; lia). destruct (Z.leb_spec k (m_ntmax s - 2)); [exfalso; clear - H2 H; lia|]. rewrite andb_false_r.
      rewrite O4 by exact H1. apply Bv.
  - destruct sol as [x|], sol1 as [y|]; cbn in F5 |- *; tauto.
  - exact F6.
  - intros x y Hx Hy. subst sol. destruct sol1 as [z|]; [|discriminate]. injection Hy as <-. reflexivity.
  - exists src. cbn [m_na m_ed]. split; [|split; [exact Q2 | exact Q3]].
    intros j Hj. destruct (Q1 j Hj) as (X1 & X2 & (N & X3 & X4)). split; [exact X1|]. split; [exact X2|].
    rewrite Ed2 by exact Hj. destruct (EV j Hj) as [Va Vb]. split; [|split; [exact X3 | exact X4]]. cbn [e_a e_b].
    rewrite (W1u _ Va), (W1u _ Vb). cbn [marked w_tmp].
    change [f (e_a (aget ed j)); f (e_b (aget ed j))] with (map f [e_a (aget ed j); e_b (aget ed j)]). apply Permutation_map. exact N.
Qed.
Print Assumptions pack_packs.

(** The edges of two triangles coincide after the compaction when they did before. *)
Lemma packed_coincide opn s s' f g : packable s -> packed opn s s' f g ->
  forall k i l j, triangle s k -> triangle s l -> 0 <= i < 3 -> 0 <= j < 3 ->
  (coincide (aget (m_a s) k) i (aget (m_a s) l) j <-> coincide (aget (m_a s') (g k)) i (aget (m_a s') (g l)) j).
Proof.
  intros G P k i l j Tk Tl Hi Hj. unfold coincide.
  rewrite (ends_map f (aget (m_a s) k) (aget (m_a s') (g k))) by (intros x Hx; apply (p_tri _ _ _ _ _ P k Tk); exact Hx).
  rewrite (ends_map f (aget (m_a s) l) (aget (m_a s') (g l))) by (intros x Hx; apply (p_tri _ _ _ _ _ P l Tl); exact Hx).
  split; [apply Permutation_map|].
  assert (I : forall m n x, triangle s m -> In x (ends (aget (m_a s) m) n) -> vertex s x).
  { intros m n x Tm Hx. apply ends_in in Hx. destruct Hx as (y & Hy & ->). apply (g_vert s G); assumption. }
  pose proof (I k i) as I1. pose proof (I l j) as I2.
  destruct (ends_two (aget (m_a s) k) i Hi) as (x & y & E1), (ends_two (aget (m_a s) l) j Hj) as (u & v & E2). rewrite E1, E2 in *.
  apply perm_map_inv. intros p q Hp Hq Eq.
  apply (numbers_inj _ _ _ _ _ (p_vert _ _ _ _ _ P)); [apply I1; assumption | apply I2; assumption | exact Eq].
Qed.

(** The packed mesh can be packed again: in particular its adjacencies fit. *)
Theorem packed_packable : forall opn s s' f g, packable s -> packed opn s s' f g -> packable s'.
Proof.
  intros opn s s' f g G P. pose proof (p_max _ _ _ _ _ P) as [Pn Pt]. pose proof (p_len _ _ _ _ _ P) as (L1 & L2 & L3).
  pose proof (p_vert _ _ _ _ _ P) as NV. pose proof (p_tria _ _ _ _ _ P) as NT. pose proof (g_mesh s G) as (M1 & M2 & M3).
  assert (CNT : forall (Q : Z -> Prop) n m h, numbers Q n h -> (forall k, Q k -> 1 <= k <= m) -> 0 <= m -> n <= m).
  { clear. intros Q n m h N B Hm. assert (X : forall x, 0 <= x -> forall k, Q k -> k <= x -> h k <= x).
    { intros x Hx. pattern x. apply natlike_ind; [| |exact Hx].
      - intros k Hk L. pose proof (B k Hk). lia.
      - intros y Hy IH k Hk L. destruct (Z.le_gt_cases (h k) (Z.succ y)) as [C|C]; [exact C|]. exfalso.
        destruct (n_onto _ _ _ N (h k - 1)) as (k' & Hk' & E); [pose proof (n_range _ _ _ N k Hk); lia|].
        assert (k' < k). { destruct (Z.lt_total k' k) as [D|[D|D]]; [exact D | subst; lia|].
          pose proof (n_order _ _ _ N k k' Hk Hk' D). lia. }
        pose proof (IH k' Hk' ltac:(lia)). lia. }
    destruct (Z.le_gt_cases n 0); [lia|]. destruct (n_onto _ _ _ N n ltac:(lia)) as (k & Hk & E). pose proof (X m Hm k Hk ltac:(pose proof (B k Hk); lia)). lia. }
  pose proof (CNT _ _ (m_np s) _ NV ltac:(intros k [A _]; exact A) ltac:(apply (g_np s G))) as B1.
  pose proof (CNT _ _ (m_nt s) _ NT ltac:(intros k [A _]; exact A) ltac:(lia)) as B2.
  pose proof (g_np s G) as B3.
  assert (TR : forall k', triangle s' k' -> exists k, triangle s k /\ g k = k') by (intros k' [A _]; apply (n_onto _ _ _ NT); exact A).
  assert (SD : forall k' i, side (m_nt s') (m_a s') k' i -> exists k, triangle s k /\ g k = k' /\ 0 <= i < 3).
  { intros k' i (A & B & C). destruct (TR k') as (k & Tk & E); [split; assumption|]. exists k. auto. }
  assert (SD' : forall k i, triangle s k -> 0 <= i < 3 -> side (m_nt s') (m_a s') (g k) i).
  { intros k i Tk Hi. pose proof (n_range _ _ _ NT k Tk) as R. destruct (p_alt _ _ _ _ _ P _ R) as [X Y]. split; [exact X|]. split; [exact Y | exact Hi]. }
  assert (VT : forall k' i, triangle s' k' -> 0 <= i < 3 -> vertex s' (t_v (aget (m_a s') k') i)).
  { intros k' i Tk' Hi. destruct (TR k' Tk') as (k & Tk & <-). destruct (p_tri _ _ _ _ _ P k Tk) as [X _]. destruct (X i Hi) as [-> _].
    apply (p_all _ _ _ _ _ P). apply (n_range _ _ _ NV). apply (g_vert s G); assumption. }
  split.
  - rewrite Pn. pose proof (n_pos _ _ _ NV). lia.
  - rewrite Pn. exact L1.
  - intros k' Hk'. destruct (n_onto _ _ _ NV k' Hk') as (k & Vk & <-). destruct (p_dat _ _ _ _ _ P k Vk) as (_ & R & _).
    rewrite (released_eq _ _ R). pose proof (g_tag s G k (proj1 Vk)) as T0. unfold thaw.
    destruct (tst _ _); [|exact T0]. apply Z.ldiff_nonneg. left. apply Z.ldiff_nonneg. left. exact T0.
  - split; [|split].
    + pose proof (n_pos _ _ _ NT). lia.
    + rewrite Pt. exact L2.
    + intros k Hk N i Hi. destruct (VT k i) as [X _]; [split; assumption | exact Hi | lia].
  - rewrite Pt. exact L3.
  - split.
    + intros k' i S. destruct (SD k' i S) as (k & Tk & <- & Hi). destruct (fit_sym _ _ _ (g_fit s G) k i) as [Z0|(l & j & (A1 & A2 & A3) & Ne & E1 & E2 & C)].
      * destruct Tk; split; [assumption | split; assumption].
      * left. apply (p_nil _ _ _ _ _ P); assumption.
      * right. assert (Tl : triangle s l) by (split; assumption). exists (g l), j.
        split; [apply SD'; assumption|]. split.
        { intros Eq. apply Ne. apply pair_equal_spec in Eq. destruct Eq as [X ->]. f_equal. apply (numbers_inj _ _ _ _ _ NT); assumption. }
        split; [apply (p_ngb _ _ _ _ _ P); try assumption; lia|].
        split; [apply (p_ngb _ _ _ _ _ P); try assumption; destruct Tk; lia|]. apply (packed_coincide opn s s' f g G P); assumption.
    + intros k' i l' j S S' Ne C Z0. destruct (SD k' i S) as (k & Tk & <- & Hi), (SD l' j S') as (l & Tl & <- & Hj).
      apply (packed_coincide opn s s' f g G P) in C; try assumption.
      assert (Q : forall m n, triangle s m -> 0 <= n < 3 -> entry (m_adj s') (g m) n = 0 -> entry (m_adj s) m n = 0).
      { intros m n Tm Hn Zm. destruct (fit_sym _ _ _ (g_fit s G) m n) as [Z1|(x & y & (A1 & A2 & A3) & _ & E1 & _)].
        - destruct Tm; split; [assumption | split; assumption].
        - exact Z1.
        - exfalso. pose proof (p_ngb _ _ _ _ _ P m n x y Tm Hn A3 E1 ltac:(lia)) as X.
          pose proof (n_range _ _ _ NT x ltac:(split; assumption)). lia. }
      intros Z1. apply (fit_max _ _ _ (g_fit s G) k i l j).
      * destruct Tk; split; [assumption | split; assumption].
      * destruct Tl; split; [assumption | split; assumption].
      * intros Eq. apply Ne. apply pair_equal_spec in Eq. destruct Eq as [-> ->]. reflexivity.
      * exact C.
      * apply Q; assumption.
      * apply Q; assumption.
    + intros k i Hk Hi N. destruct (Z.le_gt_cases k (m_nt s')) as [C|C]; [|apply (p_out _ _ _ _ _ P); [lia | exact Hi]].
      exfalso. apply N. destruct (p_alt _ _ _ _ _ P k ltac:(lia)) as [X Y]. split; [exact X|]. split; [exact Y | exact Hi].
  - exact VT.
Qed.
Print Assumptions packed_packable.

(** ** The free cells *)

(** The vertex reached after [n] steps in the list of free vertices. *)
Fixpoint nth_free (w : arr vert) (n : nat) (k : Z) : Z :=
  match n with O => k | S n => if k =? 0 then 0 else nth_free w n (w_tmp (aget w k)) end.
Fixpoint nth_freet (a : arr tri) (n : nat) (k : Z) : Z :=
  match n with O => k | S n => if k =? 0 then 0 else nth_freet a n (t_v (aget a k) 2) end.

(** The list of free vertices has no vertex of the mesh. *)
Definition free_ok (s : mesh) : Prop :=
  forall n, ~ vertex s (nth_free (m_w s) n (m_npnil s)).
Definition freet_ok (s : mesh) : Prop :=
  forall n, ~ triangle s (nth_freet (m_a s) n (m_nenil s)).

(** When the last cell that can be used is free and ends its list, the list is good. *)
Theorem free_cells : forall s s' opn f g, packed opn s s' f g -> listed s s' ->
  m_np s < m_npmax s - 1 -> m_nt s < m_ntmax s - 1 ->
  w_tmp (aget (m_w s) (m_npmax s - 1)) = 0 -> t_v (aget (m_a s) (m_ntmax s - 1)) 2 = 0 ->
  free_ok s' /\ freet_ok s'.
Proof.
  intros s s' opn f g P L H1 H2 W1 T1.
  pose proof (n_pos _ _ _ (p_vert _ _ _ _ _ P)). pose proof (n_pos _ _ _ (p_tria _ _ _ _ _ P)).
  split; intros n.
  - assert (Q : forall n k, k = 0 \/ (m_np s' < m_npmax s - 3 /\ m_np s' < k <= m_npmax s - 1) -> ~ vertex s' (nth_free (m_w s') n k)).
    { clear n. intros n. induction n as [|n IH]; intros k [->|[A B]]; cbn [nth_free].
      - intros [X _]. lia.
      - intros [X _]. lia.
      - rewrite Z.eqb_refl. intros [X _]. lia.
      - destruct (Z.eqb_spec k 0); [intros [X _]; lia|]. apply IH. destruct (Z.eq_dec k (m_npmax s - 1)) as [->|N].
        + left. rewrite (l_tmp' _ _ L) by lia. exact W1.
        + right. rewrite (l_tmp _ _ L A k) by lia. lia. }
    apply Q. rewrite (l_np _ _ L). destruct (Z.ltb_spec (m_np s') (m_npmax s - 3)); [right; lia | left; reflexivity].
  - assert (Q : forall n k, k = 0 \/ (m_nt s' < m_ntmax s - 3 /\ m_nt s' < k <= m_ntmax s - 1) -> ~ triangle s' (nth_freet (m_a s') n k)).
    { clear n. intros n. induction n as [|n IH]; intros k [->|[A B]]; cbn [nth_freet].
      - intros [X _]. lia.
      - intros [X _]. lia.
      - rewrite Z.eqb_refl. intros [X _]. lia.
      - destruct (Z.eqb_spec k 0); [intros [X _]; lia|]. apply IH. destruct (Z.eq_dec k (m_ntmax s - 1)) as [->|N].
        + left. rewrite (l_v2' _ _ L) by lia. exact T1.
        + right. rewrite (l_v2 _ _ L A k) by lia. lia. }
    apply Q. rewrite (l_nt _ _ L). destruct (Z.ltb_spec (m_nt s') (m_ntmax s - 3)); [right; lia | left; reflexivity].
Qed.
Print Assumptions free_cells.

(** ** A case and the refutations *)

(** Five vertices among nine, three triangles among four; room for nine vertices.
    The vertices 3, 9, 4 and 5 have been removed, in this order. *)
Definition fivex (x : Z) : arr vert :=
  mkArr 11 (aget (aof vert0 [mkVt 0 0 10; mkVt 68 0 20; mkVt G_NUL 0 0; mkVt G_NUL 9 0; mkVt G_NUL 4 0; mkVt 32 0 60; mkVt 0 0 70; mkVt 0 0 80; mkVt G_NUL x 0])).
Definition five : arr vert := fivex 3.
Definition three : arr tri :=
  mkArr 11 (aget (aof (tria 0 0 0 0) [tria 1 2 6 1; tria 0 0 0 0; tria 2 7 6 1; tria 7 8 6 2])).
Definition adj3 : arr Z := match hash2 1000 4 10 three with Ret x => x | Stuck => acalloc 0 0 end.
Definition holedx (x : Z) : mesh := mkMesh 8 10 5 (fivex x) 4 10 5 three adj3 0 (acalloc 0 edge0).
Definition holed : mesh := holedx 3.
(** A metric with two values at each vertex. *)
Definition metric : sol2 := mkSol 2 8 (mkArr 22 (fun i => i)).

(** The state comes from nine vertices. *)
Definition nine : mesh :=
  mkMesh 9 10 0 (mkArr 11 (aget (aof vert0 [mkVt 0 0 10; mkVt 68 0 20; mkVt 0 0 30; mkVt 0 0 40; mkVt 0 0 50; mkVt 32 0 60; mkVt 0 0 70; mkVt 0 0 80; mkVt 0 0 90])))
    4 10 5 three adj3 0 (acalloc 0 edge0).
Definition cells (s : mesh) : list (Z * Z * Z) :=
  map (fun n => let p := aget (m_w s) (Z.of_nat n) in (w_tag p, w_tmp p, w_dat p)) (seq 0 11).
Example holed_reached :
  match (s <- delPt2 nine 3 ;; s <- delPt2 s 9 ;; s <- delPt2 s 4 ;; delPt2 s 5) with
  | Ret s => (m_np s, m_npnil s, cells s) = (m_np holed, m_npnil holed, cells holed)
  | Stuck => False
  end.
Proof. vm_compute. reflexivity. Qed.

Lemma three_mesh : mesh2 4 10 three.
Proof.
  split; [lia|]. split; [reflexivity|]. intros k Hk N i Hi.
  assert (k = 1 \/ k = 2 \/ k = 3 \/ k = 4) as C by lia. assert (i = 0 \/ i = 1 \/ i = 2) as D by lia.
  destruct C as [->|[->|[->| ->]]], D as [->|[->| ->]]; try reflexivity; exfalso; apply N; reflexivity.
Qed.

Lemma holedx_packable x9 : packable (holedx x9).
Proof.
  destruct (hash_2d_fits 1000 4 10 three three_mesh ltac:(lia)) as (x & E & L & F).
  assert (Ea : adj3 = x) by (unfold adj3; rewrite E; reflexivity).
  split; cbn [holedx m_np m_npmax m_npnil m_w m_nt m_ntmax m_nenil m_a m_adj].
  - lia.
  - reflexivity.
  - intros k Hk. assert (k = 1 \/ k = 2 \/ k = 3 \/ k = 4 \/ k = 5 \/ k = 6 \/ k = 7 \/ k = 8) as C by lia.
    destruct C as [->|[->|[->|[->|[->|[->|[->| ->]]]]]]]; discriminate.
  - exact three_mesh.
  - rewrite Ea. exact L.
  - rewrite Ea. exact F.
  - intros k i (A & B) Hi. change (m_nt (holedx x9)) with 4 in A. assert (k = 1 \/ k = 2 \/ k = 3 \/ k = 4) as C by lia. assert (i = 0 \/ i = 1 \/ i = 2) as D by lia.
    destruct C as [->|[->|[->| ->]]], D as [->|[->| ->]]; try (exfalso; apply B; reflexivity); (split; [vm_compute; split; discriminate | reflexivity]).
Qed.
Example holed_packable : packable holed.
Proof. apply holedx_packable. Qed.
Example metric_fits : sol_fits holed (Some metric).
Proof. split; [cbn; lia | reflexivity]. Qed.

(** What is returned. *)
Definition shown (r : outcome (mesh * option sol2 * option sol2)) : outcome (list (Z * Z * Z) * list (list Z) * list Z * list Z) :=
  '(s, sol, _) <- r ;;
  Ret (map (fun n => let p := aget (m_w s) (Z.of_nat n) in (w_tag p, w_tmp p, w_dat p)) (seq 1 (Z.to_nat (m_np s))),
       map (fun n => let t := aget (m_a s) (Z.of_nat n) in [t_v t 0; t_v t 1; t_v t 2]) (seq 1 (Z.to_nat (m_nt s))),
       map (fun n => aget (m_adj s) (Z.of_nat n)) (seq 1 (3 * Z.to_nat (m_nt s))),
       match sol with Some x => map (fun n => aget (s_m x) (Z.of_nat n)) (seq 2 10) | None => [] end).
Example holed_packed : shown (pack2 false holed (Some metric) None) =
  Ret ([(0, 0, 10); (0, 0, 20); (32, 0, 60); (0, 0, 70); (0, 0, 80)], [[1; 2; 3]; [2; 4; 3]; [4; 5; 3]],
       [7; 0; 0; 10; 3; 0; 0; 6; 0], [2; 3; 4; 5; 12; 13; 14; 15; 16; 17]).
Proof. vm_compute. reflexivity. Qed.

(** The lists of free cells are good before. *)
Lemma holed_free : free_ok holed.
Proof.
  assert (Z : forall n, nth_free five n 0 = 0) by (intros n; destruct n; reflexivity).
  assert (V : forall k, k = 0 \/ k = 5 \/ k = 4 \/ k = 9 \/ k = 3 -> ~ vertex holed k).
  { intros k [->|[->|[->|[->| ->]]]] [A B]; cbn in A; try lia; vm_compute in B; discriminate. }
  intros n. apply V. unfold holed, holedx. cbn [m_w m_npnil].
  destruct n as [|[|[|[|n]]]]; [right; left; reflexivity | right; right; left; reflexivity | do 3 right; left; reflexivity | do 4 right; reflexivity|].
  left. exact (Z n).
Qed.

(** The hypotheses of [free_cells] are met when the cell 9 ends its list. *)
Example ended_free : exists s' sol' met', pack2 false (holedx 0) None None = Ret (s', sol', met') /\ free_ok s' /\ freet_ok s'.
Proof.
  destruct (pack_packs false (holedx 0) None None (holedx_packable 0) I I) as (s' & sol' & met' & f & g & E & P & L & _).
  exists s', sol', met'. split; [exact E|]. apply (free_cells (holedx 0) s' false f g P L); cbn; lia || reflexivity.
Qed.

(** After the compaction the free vertices are free: false, the last free cell keeps
    the number it had in its list, which may now be the one of a vertex. *)
Theorem free_cells_refuted : exists s sol met s' sol' met', packable s /\ free_ok s /\
  pack2 false s sol met = Ret (s', sol', met') /\ ~ free_ok s'.
Proof.
  destruct (pack_packs false holed None None holed_packable I I) as (s' & sol' & met' & f & g & E & P & _).
  exists holed, None, None, s', sol', met'. split; [exact holed_packable|]. split; [exact holed_free|]. split; [exact E|].
  assert (X : match pack2 false holed None None with
              | Ret (s, _, _) => (1 <=? nth_free (m_w s) 4 (m_npnil s)) && (nth_free (m_w s) 4 (m_npnil s) <=? m_np s)
              | Stuck => false end = true) by (vm_compute; reflexivity).
  rewrite E in X. apply andb_prop in X. destruct X as [X Y]. apply Z.leb_le in X, Y.
  intros F. apply (F 4%nat). apply (p_all _ _ _ _ _ P). split; assumption.
Qed.
Print Assumptions free_cells_refuted.

(** Five new vertices later, a vertex of the mesh has been overwritten. *)
Theorem new_vertex_refuted : exists s s' sol' met' s5 k, packable s /\ free_ok s /\
  pack2 false s None None = Ret (s', sol', met') /\ vertex s' k /\
  (s1 <- newPt2 s' 1000 0 ;; s2 <- newPt2 (fst s1) 1001 0 ;; s3 <- newPt2 (fst s2) 1002 0 ;; s4 <- newPt2 (fst s3) 1003 0 ;; newPt2 (fst s4) 1004 0) = Ret (s5, k) /\
  w_dat (aget (m_w s5) k) <> w_dat (aget (m_w s') k).
Proof.
  destruct (pack_packs false holed None None holed_packable I I) as (s' & sol' & met' & f & g & E & P & _).
  set (run := fun s' => s1 <- newPt2 s' 1000 0 ;; s2 <- newPt2 (fst s1) 1001 0 ;; s3 <- newPt2 (fst s2) 1002 0 ;; s4 <- newPt2 (fst s3) 1003 0 ;; newPt2 (fst s4) 1004 0).
  assert (X : match pack2 false holed None None with
              | Ret (s, _, _) => match run s with
                  | Ret (s5, k) => (1 <=? k) && (k <=? m_np s) && negb (w_dat (aget (m_w s5) k) =? w_dat (aget (m_w s) k))
                  | Stuck => false end
              | Stuck => false end = true) by (vm_compute; reflexivity).
  rewrite E in X. destruct (run s') as [(s5 & k)|] eqn:R; [|discriminate].
  apply andb_prop in X. destruct X as [X Y]. apply andb_prop in X. destruct X as [X X']. apply Z.leb_le in X, X'.
  exists holed, s', sol', met', s5, k. split; [exact holed_packable|]. split; [exact holed_free|]. split; [exact E|].
  split; [apply (p_all _ _ _ _ _ P); split; assumption|]. split; [exact R|]. apply negb_true_iff in Y. apply Z.eqb_neq in Y. exact Y.
Qed.
Print Assumptions new_vertex_refuted.

(** Both solutions have the number of vertices of the packed mesh: false for the
    last one. *)
Theorem solution_size_refuted : exists s met s' y, packable s /\ sol_fits s (Some met) /\ s_np met = m_np s /\
  pack2 false s None (Some met) = Ret (s', None, Some y) /\ s_np y <> m_np s'.
Proof.
  destruct (pack_packs false holed None (Some metric) holed_packable I metric_fits) as (s' & sol' & met' & f & g & E & _).
  assert (X : match pack2 false holed None (Some metric) with
              | Ret (s, None, Some y) => negb (s_np y =? m_np s)
              | _ => false end = true) by (vm_compute; reflexivity).
  rewrite E in X. destruct sol' as [|]; [discriminate|]. destruct met' as [y|]; [|discriminate].
  exists holed, metric, s', y. split; [exact holed_packable|]. split; [exact metric_fits|]. split; [reflexivity|]. split; [exact E|].
  apply negb_true_iff in X. apply Z.eqb_neq in X. exact X.
Qed.
Print Assumptions solution_size_refuted.
