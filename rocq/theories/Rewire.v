(** A change of the adjacency table seen on the codes [4*k+i] of the faces. *)
From Coq Require Import ZArith List Lia Bool.
From Verif Require Import CBase Tet3Model Tet3Spec Tet3Proofs Tet3Pool Tet3Col Tet3Out.
Import ListNotations.
Open Scope Z_scope.

Definition slot (m : mesh) (c : Z) : Prop := live m (c / 4).
Definition nbc (m : mesh) (c : Z) : Z := nb m (c / 4) (c mod 4).
Definition fc (m : mesh) (c x : Z) : Prop := on_face m (c / 4) (c mod 4) x.
Definition samec (m : mesh) (c d : Z) : Prop := forall x, fc m c x <-> fc m d x.

Lemma nbc_at m k i : loc i -> nbc m (4 * k + i) = nb m k i.
Proof. intros L. unfold nbc. rewrite dec_div, dec_mod by exact L. reflexivity. Qed.
Lemma fc_at m k i x : loc i -> (fc m (4 * k + i) x <-> on_face m k i x).
Proof. intros L. unfold fc. rewrite dec_div, dec_mod by exact L. reflexivity. Qed.
Lemma slot_at m k i : loc i -> (slot m (4 * k + i) <-> live m k).
Proof. intros L. unfold slot. rewrite dec_div by exact L. reflexivity. Qed.
Lemma code_eta c : c = 4 * (c / 4) + c mod 4.
Proof. apply Z.div_mod. lia. Qed.
Lemma code_eq k i l j : loc i -> loc j -> (4 * k + i = 4 * l + j <-> k = l /\ i = j).
Proof. intros H1 H2. apply loc_le in H1, H2. split; [|intros [-> ->]; reflexivity]. intros E. assert (k = l) by lia. subst. split; lia. Qed.
Lemma slot_nz m c : slot m c -> c <> 0.
Proof. intros H ->. apply live_pos in H. cbn in H. lia. Qed.

(** The facts about the table of neighbours on codes. *)
Lemma nbc_sym m c : vertices_ok m -> adjacent m -> slot m c -> nbc m c <> 0 ->
  slot m (nbc m c) /\ nbc m (nbc m c) = c /\ nbc m c / 4 <> c / 4 /\ samec m c (nbc m c).
Proof.
  intros V A S NZ. destruct (nb_dec m (c / 4) (c mod 4) V A S (loc_mod c) NZ) as (L & Lj & B & N & SF).
  split; [exact L|]. split; [|split; [exact N|exact SF]]. unfold nbc at 1. unfold nbc. rewrite B. symmetry. apply code_eta.
Qed.
Lemma nbc_is m c d : vertices_ok m -> adjacent m -> slot m c -> slot m d -> c <> d -> samec m c d -> nbc m c = d.
Proof.
  intros V A Sc Sd N SF. unfold nbc. rewrite (nb_same m (c / 4) (c mod 4) (d / 4) (d mod 4) V A Sc (loc_mod c) Sd (loc_mod d)).
  - symmetry. apply code_eta.
  - intros E. apply N. rewrite (code_eta c), (code_eta d), E. f_equal.
    apply (same_self m (c / 4)); auto using loc_mod. rewrite E in SF at 1 2 || idtac. intros x. specialize (SF x). unfold fc in SF. rewrite E in SF. exact SF.
  - exact SF.
Qed.

Section Rewire.
Variable m m' : mesh.
Hypothesis V : vertices_ok m.
Hypothesis A : adjacent m.
Hypothesis V' : vertices_ok m'.
Variable phi iota : Z -> Z.
Variable keep inner : Z -> Prop.
Hypothesis H1 : forall c', slot m' c' -> (exists c, slot m c /\ keep c /\ c' = phi c) \/ inner c'.
Hypothesis H2s : forall c, slot m c -> keep c -> slot m' (phi c).
Hypothesis H2f : forall c x, slot m c -> keep c -> (fc m' (phi c) x <-> fc m c x).
Hypothesis H2n : forall c, slot m c -> keep c -> nbc m' (phi c) = if nbc m c =? 0 then 0 else phi (nbc m c).
Hypothesis H2k : forall c, slot m c -> keep c -> nbc m c <> 0 -> keep (nbc m c).
Hypothesis H3 : forall c, inner c -> nbc m' c = iota c /\ slot m' (iota c) /\ iota c / 4 <> c / 4 /\ samec m' c (iota c).
Hypothesis H4 : forall c d, inner c -> inner d -> samec m' c d -> d = c \/ d = iota c.
Hypothesis H5 : forall c d, inner c -> slot m d -> keep d -> ~ (forall x, fc m' c x <-> fc m d x).

Hypothesis H6 : forall c d, slot m c -> keep c -> slot m d -> keep d -> phi c = phi d -> c = d.

Lemma samec_self c d : slot m' c -> c / 4 = d / 4 -> samec m' c d -> c = d.
Proof.
  intros S E SF. rewrite (code_eta c), (code_eta d), E. f_equal. unfold slot in S. apply (same_self m' (c / 4)); auto using loc_mod.
  intros x. specialize (SF x). unfold fc in SF. rewrite <- E in SF. exact SF.
Qed.

Theorem rewire : adjacent m'.
Proof.
  apply adjacent_by; [exact V'| |].
  - intros k i l j Lk Li Ll Lj N SF. rewrite <- (nbc_at m' k i Li).
    set (c' := 4 * k + i). set (d' := 4 * l + j).
    assert (Sc : slot m' c') by (apply slot_at; assumption). assert (Sd : slot m' d') by (apply slot_at; assumption).
    assert (Ncd : c' <> d') by (intros E; apply code_eq in E; try assumption; destruct E; congruence).
    assert (SC : samec m' c' d') by (intros x; unfold c', d'; rewrite !fc_at by assumption; apply SF).
    destruct (H1 c' Sc) as [(c & Rc & Kc & Ec)|Ic], (H1 d' Sd) as [(d & Rd & Kd & Ed)|Id].
    + assert (Sm : samec m c d) by (intros x; rewrite <- (H2f c x Rc Kc), <- (H2f d x Rd Kd), <- Ec, <- Ed; apply SC).
      assert (Nm : c <> d) by (intros ->; congruence).
      pose proof (nbc_is m c d V A Rc Rd Nm Sm) as E. rewrite Ec, (H2n c Rc Kc), E. rewrite (proj2 (Z.eqb_neq d 0) (slot_nz m d Rd)). symmetry. exact Ed.
    + exfalso. apply (H5 d' c Id Rc Kc). intros x. rewrite <- (H2f c x Rc Kc), <- Ec. symmetry. apply SC.
    + exfalso. apply (H5 c' d Ic Rd Kd). intros x. rewrite <- (H2f d x Rd Kd), <- Ed. apply SC.
    + destruct (H3 c' Ic) as (E & _). rewrite E. destruct (H4 c' d' Ic Id SC) as [X|X]; congruence.
  - intros k i Lk Li NZ. rewrite <- (nbc_at m' k i Li) in *. set (c' := 4 * k + i) in *.
    assert (Sc : slot m' c') by (apply slot_at; assumption). assert (Kc' : c' / 4 = k) by (apply dec_div, Li).
    destruct (H1 c' Sc) as [(c & Rc & Kc & Ec)|Ic].
    + pose proof (H2n c Rc Kc) as E. rewrite <- Ec in E. destruct (Z.eqb_spec (nbc m c) 0) as [Z0|N0]; [congruence|].
      destruct (nbc_sym m c V A Rc N0) as (Sn & B & Nn & SF). pose proof (H2k c Rc Kc N0) as Kn. pose proof (H2s _ Sn Kn) as Sn'.
      assert (SF' : samec m' c' (phi (nbc m c))) by (intros x; rewrite Ec, (H2f _ x Rc Kc), (H2f _ x Sn Kn); apply SF).
      exists (phi (nbc m c) / 4), (phi (nbc m c) mod 4). rewrite E. split; [exact Sn'|]. split; [apply loc_mod|]. split; [apply code_eta|]. split.
      * intros X. assert (X2 : c' = phi (nbc m c)) by (apply samec_self; [exact Sc|congruence|exact SF']).
        apply Nn. rewrite <- (H6 c (nbc m c) Rc Kc Sn Kn); [reflexivity|congruence].
      * intros x. specialize (SF' x). unfold fc in SF'. rewrite Kc' in SF'. unfold c' in SF' at 1. rewrite dec_mod in SF' by exact Li. exact SF'.
    + destruct (H3 c' Ic) as (E & Si & Ni & SF). exists (iota c' / 4), (iota c' mod 4). rewrite E. split; [exact Si|]. split; [apply loc_mod|]. split; [apply code_eta|].
      split; [congruence|]. intros x. specialize (SF x). unfold fc in SF. rewrite Kc' in SF. unfold c' in SF at 1. rewrite dec_mod in SF by exact Li. exact SF.
Qed.
End Rewire.
