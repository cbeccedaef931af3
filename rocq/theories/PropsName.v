(** C16 and C45: extensions, formats, derived names and the parameter file. *)
From Coq Require Import Ascii String List Arith Bool Lia.
From Verif Require Import CBase NameModel.
Import ListNotations.
Open Scope list_scope.

(** ** Vocabulary of the statements *)

(** [name] ends with the extension [e] (dot not included) of its last component,
    that component not being searched further than the last separator. *)
Definition ends_with (name e : list ascii) : Prop :=
  (exists pre, name = pre ++ dotc :: e) /\ ~ In dotc e /\ ~ In sep e.

(** The extension the documentation of [MMG5_Get_filenameExt] promises: not [.o]. *)
Definition has_ext (name e : list ascii) : Prop :=
  (exists pre, pre <> [] /\ name = pre ++ dotc :: e) /\ ~ In dotc e /\ ~ In sep e /\ e <> txt "o".

(** The extensions of libmmgtypes.h:240-252 and the readers. *)
Definition known : list (list ascii * format) :=
  [(txt "mesh", MeditASCII); (txt "meshb", MeditBinary); (txt "msh", GmshASCII); (txt "mshb", GmshBinary);
   (txt "pvtu", VtkPvtu); (txt "vtu", VtkVtu); (txt "pvtp", VtkPvtp); (txt "vtp", VtkVtp);
   (txt "vtk", VtkVtk); (txt "node", Tetgen)].

(** ** The library functions *)

Lemma strrchr_some c s i :
  strrchr c s = Some i <-> exists a b, s = a ++ c :: b /\ length a = i /\ ~ In c b.
Proof.
  revert i. induction s as [|x s IH]; cbn [strrchr]; intros i.
  - split; [discriminate|]. intros (a & b & E & _). destruct a; discriminate.
  - destruct (strrchr c s) as [j|] eqn:Ej.
    + split.
      * intros E. injection E as <-. destruct (proj1 (IH j) eq_refl) as (a & b & -> & L & N).
        exists (x :: a), b. cbn. auto.
      * intros (a & b & E & L & N). destruct a as [|y a]; cbn in E; injection E as -> E.
        -- exfalso. destruct (proj1 (IH j) eq_refl) as (a' & b' & E' & _). subst b.
           apply N. rewrite E'. apply in_or_app. right. now left.
        -- f_equal. cbn in L. assert (H : Some j = Some (length a)).
           { apply IH. exists a, b. auto. }
           injection H as ->. lia.
    + assert (Nn : ~ In c s).
      { intros Hin. clear IH. revert Ej. induction s as [|y s IHs]; [inversion Hin|].
        cbn. destruct (strrchr c s) eqn:E'; [discriminate|].
        destruct (Ascii.eqb_spec y c); [discriminate|]. intros _.
        destruct Hin as [->|Hin]; [congruence|]. now apply IHs. }
      destruct (Ascii.eqb_spec x c) as [->|Ne].
      * split.
        -- intros E. injection E as <-. exists [], s. auto.
        -- intros (a & b & E & L & N). destruct a as [|y a]; cbn in E.
           ++ cbn in L. now subst.
           ++ injection E as _ E. exfalso. apply Nn. rewrite E. apply in_or_app. right. now left.
      * split; [discriminate|]. intros (a & b & E & L & N).
        destruct a as [|y a]; cbn in E; injection E as -> E; [congruence|].
        exfalso. apply Nn. rewrite E. apply in_or_app. right. now left.
Qed.

Lemma strrchr_none c s : strrchr c s = None <-> ~ In c s.
Proof.
  split.
  - intros H Hin. apply in_split in Hin. revert H. 
    induction s as [|x s IH]; cbn.
    + destruct Hin as (a & b & E). destruct a; discriminate.
    + destruct (strrchr c s); [discriminate|]. destruct (Ascii.eqb_spec x c) as [->|Ne]; [discriminate|].
      intros _. apply IH; [|reflexivity]. destruct Hin as (a & b & E).
      destruct a as [|y a]; cbn in E; injection E as -> E; [congruence|]. eauto.
  - intros H. destruct (strrchr c s) eqn:E; [|reflexivity]. exfalso.
    apply strrchr_some in E. destruct E as (a & b & -> & _). apply H. apply in_or_app. right. now left.
Qed.

Lemma streq_eq a b : streq a b = true <-> a = b.
Proof.
  revert b. induction a as [|x a IH]; intros [|y b]; cbn; split; try congruence; try easy.
  - intros H. apply andb_true_iff in H. destruct H as [H1 H2]. apply Ascii.eqb_eq in H1. apply IH in H2. congruence.
  - intros H. injection H as -> ->. rewrite Ascii.eqb_refl. now apply IH.
Qed.

Lemma starts_app k p : starts k p = true <-> exists q, p = k ++ q.
Proof.
  revert p. induction k as [|x k IH]; intros p; cbn.
  - split; eauto.
  - destruct p as [|y p]; [split; [discriminate | intros [q E]; discriminate]|].
    rewrite andb_true_iff, Ascii.eqb_eq, IH. split.
    + intros [-> [q ->]]. eauto.
    + intros [q E]. injection E as -> ->. eauto.
Qed.

Lemma skipn_exact A (a b : list A) : skipn (length a) (a ++ b) = b.
Proof. induction a; auto. Qed.

Lemma firstn_exact A (a b : list A) : firstn (length a) (a ++ b) = a.
Proof. induction a; cbn; [reflexivity|now f_equal]. Qed.

Lemma app_inj_last c (a a' b b' : list ascii) :
  a ++ c :: b = a' ++ c :: b' -> ~ In c b -> ~ In c b' -> a = a' /\ b = b'.
Proof.
  intros E N N'.
  assert (H : Some (length a) = Some (length a')).
  { rewrite <- (proj2 (strrchr_some c (a ++ c :: b) (length a))) by eauto.
    rewrite E. apply strrchr_some. eauto. }
  injection H as H.
  split.
  - apply (f_equal (firstn (length a))) in E. rewrite firstn_exact in E.
    rewrite H, firstn_exact in E. exact E.
  - apply (f_equal (skipn (length a))) in E. rewrite skipn_exact in E.
    rewrite H, skipn_exact in E. now injection E.
Qed.

(** ** Extensions *)

(** The extension found is the one promised, and none is found exactly when there is
    none; the pointer returned is inside the name. *)
Theorem C16_extension name :
  exists p, Get_filenameExt (Some name) = Some p /\ p <= length name /\
    (skipn p name = [] /\ (forall e, ~ has_ext name e)
     \/ exists e, skipn p name = dotc :: e /\ has_ext name e /\ (forall e', has_ext name e' -> e' = e)).
Proof.
  unfold Get_filenameExt.
  destruct (strrchr dotc name) as [d|] eqn:Ed.
  2:{ exists (length name). repeat split; auto. left. split; [apply skipn_all|].
      intros e ((pre & _ & E) & _). apply strrchr_none in Ed. apply Ed. rewrite E. apply in_or_app. right. now left. }
  apply strrchr_some in Ed. destruct Ed as (a & b & E & L & N).
  destruct (Nat.eqb d 0 || beyond (strrchr sep name) d || streq (skipn d name) (txt ".o")) eqn:B.
  - exists (length name). repeat split; auto. left. split; [apply skipn_all|].
    intros e ((pre & Np & E') & Nd & Ns & No).
    rewrite E in E'. apply app_inj_last in E'; auto. destruct E' as [<- <-].
    apply orb_true_iff in B. destruct B as [B|B]; [apply orb_true_iff in B; destruct B as [B|B]|].
    + apply Nat.eqb_eq in B. subst d. destruct a; [congruence|discriminate].
    + unfold beyond in B. destruct (strrchr sep name) as [l|] eqn:El; [|discriminate].
      apply Nat.ltb_lt in B. apply strrchr_some in El. destruct El as (a' & b' & E' & L' & N').
      apply Ns.
      rewrite E in E'. assert (H : nth_error (a ++ dotc :: b) l = Some sep).
      { rewrite E', <- L'. rewrite nth_error_app2 by lia. now rewrite Nat.sub_diag. }
      rewrite nth_error_app2 in H by lia. rewrite L in H.
      destruct (l - d) as [|m] eqn:Em; [lia|]. cbn in H. eapply nth_error_In; eauto.
    + apply streq_eq in B. rewrite E, <- L, skipn_exact in B. injection B as ->. now apply No.
  - exists d. repeat split; auto.
    { rewrite E, app_length. cbn. lia. }
    right. exists b. rewrite E, <- L, skipn_exact. split; [reflexivity|].
    apply orb_false_iff in B. destruct B as [B B3]. apply orb_false_iff in B. destruct B as [B1 B2].
    split.
    + repeat split; auto.
      * exists a. split; [|reflexivity]. intros ->. subst d. discriminate.
      * intros Hin. apply in_split in Hin. destruct Hin as (u & v & ->).
        assert (Hl : exists l, strrchr sep name = Some l /\ d < l).
        { destruct (strrchr sep name) as [l|] eqn:El.
          - exists l. split; [reflexivity|]. apply strrchr_some in El. destruct El as (a' & b' & E' & L' & N').
            rewrite E in E'. destruct (Nat.lt_ge_cases d l) as [H|H]; [exact H|]. exfalso. apply N'.
            assert (Hn : nth_error (a' ++ sep :: b') (length a + S (length u)) = Some sep).
            { rewrite <- E'. rewrite nth_error_app2 by lia.
              replace (length a + S (length u) - length a) with (S (length u)) by lia. cbn.
              rewrite nth_error_app2 by lia. now rewrite Nat.sub_diag. }
            rewrite nth_error_app2 in Hn by lia.
            destruct (length a + S (length u) - length a') as [|m] eqn:Em; [lia|]. cbn in Hn.
            eapply nth_error_In; eauto.
          - exfalso. apply strrchr_none in El. apply El. rewrite E. apply in_or_app. right. right.
            apply in_or_app. right. now left. }
        destruct Hl as (l & El & Hl). rewrite El in B2. cbn in B2. apply Nat.ltb_ge in B2. lia.
      * intros ->. rewrite E, <- L, skipn_exact in B3. vm_compute in B3. discriminate.
    + intros e' ((pre & _ & E') & Nd & _). apply app_inj_last in E'; auto. now destruct E'.
Qed.
Print Assumptions C16_extension.

Lemma ext_some name e :
  has_ext name e -> at_ (Some name) (Get_filenameExt (Some name)) = Some (dotc :: e).
Proof.
  intros H. destruct (C16_extension name) as (p & -> & _ & [[_ N]|(e' & E & _ & U)]).
  - exfalso. eapply N; eauto.
  - cbn. rewrite E. now rewrite (U e H).
Qed.

Lemma ext_none name :
  (forall e, ~ has_ext name e) -> at_ (Some name) (Get_filenameExt (Some name)) = Some [].
Proof.
  intros H. destruct (C16_extension name) as (p & -> & _ & [[E _]|(e' & E & X & U)]).
  - cbn. now rewrite E.
  - exfalso. eapply H; eauto.
Qed.

(** Two names with the same extension have the same format, whatever their
    directories and stems; two names without extension also. *)
Theorem C16_format_of_extension_partial n1 n2 dflt :
  (forall e, has_ext n1 e <-> has_ext n2 e) -> format_of (Some n1) dflt = format_of (Some n2) dflt.
Proof.
  intros H. unfold format_of.
  destruct (C16_extension n1) as (p & E1 & _ & [[_ N]|(e & _ & X & _)]).
  - rewrite ext_none by exact N. rewrite ext_none; [reflexivity|].
    intros e X. eapply N. apply H. exact X.
  - rewrite (ext_some n1 e X). rewrite (ext_some n2 e); [reflexivity|]. now apply H.
Qed.
Print Assumptions C16_format_of_extension_partial.

(** Every known extension is recognised; without extension, or when the extension
    does not begin like a known one, the default is returned. *)
Theorem C16_known name e f dflt :
  has_ext name e -> In (e, f) known -> format_of (Some name) dflt = f.
Proof.
  intros X I. unfold format_of. rewrite (ext_some name e X).
  unfold known in I. cbn [In] in I.
  repeat (destruct I as [I|I]; [injection I as <- <-; reflexivity|]). inversion I.
Qed.
Print Assumptions C16_known.

Lemma starts_dot k e : starts (txt (String "."%char k)) (dotc :: e) = starts (txt k) e.
Proof. reflexivity. Qed.

Theorem C16_unknown name dflt :
  (forall e k f, has_ext name e -> In (k, f) known -> ~ exists q, e = k ++ q) ->
  format_of (Some name) dflt = dflt.
Proof.
  intros H. unfold format_of.
  destruct (C16_extension name) as (p & _ & _ & [[_ N]|(e & _ & X & _)]).
  - rewrite ext_none by exact N. reflexivity.
  - rewrite (ext_some name e X). unfold Get_format. rewrite !starts_dot.
    assert (K : forall k f, In (k, f) known -> starts k e = false).
    { intros k f I. destruct (starts k e) eqn:S; [|reflexivity]. exfalso.
      apply starts_app in S. eapply H; eauto. }
    rewrite (K (txt "meshb") MeditBinary), (K (txt "mesh") MeditASCII), (K (txt "mshb") GmshBinary),
      (K (txt "msh") GmshASCII), (K (txt "pvtu") VtkPvtu), (K (txt "vtu") VtkVtu), (K (txt "pvtp") VtkPvtp),
      (K (txt "vtp") VtkVtp), (K (txt "vtk") VtkVtk), (K (txt "node") Tetgen) by (cbn; tauto).
    reflexivity.
Qed.
Print Assumptions C16_unknown.

Example C16_dirs :
  format_of (Some (txt "a.b/cube.meshb")) MeditASCII = MeditBinary /\
  format_of (Some (txt "cube.v2.meshb")) MeditASCII = MeditBinary /\
  format_of (Some (txt "run.mshb/cube")) MeditASCII = MeditASCII /\
  format_of (Some (txt "cube.mshb.o")) MeditASCII = MeditASCII.
Proof. repeat split; vm_compute; reflexivity. Qed.

(** A directory with dots is never taken for an extension. *)
Theorem C16_directory dir base dflt :
  ~ In dotc base -> ~ In sep base ->
  format_of (Some (dir ++ sep :: base)) dflt = dflt /\
  Get_filenameExt (Some (dir ++ sep :: base)) = Some (length (dir ++ sep :: base)).
Proof.
  intros Nd Ns.
  assert (N : forall e, ~ has_ext (dir ++ sep :: base) e).
  { intros e ((pre & _ & E) & Nde & Nse & _).
    (* the last dot lies in [dir], so the separator is in [e] *)
    assert (Hl : length pre < length dir).
    { destruct (Nat.lt_ge_cases (length pre) (length dir)) as [H|H]; [exact H|]. exfalso.
      assert (Hn : nth_error (dir ++ sep :: base) (length pre) = Some dotc).
      { rewrite E, nth_error_app2 by lia. now rewrite Nat.sub_diag. }
      rewrite nth_error_app2 in Hn by lia. destruct (length pre - length dir) as [|m]; cbn in Hn.
      - discriminate.
      - apply Nd. eapply nth_error_In; eauto. }
    assert (Hn : nth_error (pre ++ dotc :: e) (length dir) = Some sep).
    { rewrite <- E, nth_error_app2 by lia. now rewrite Nat.sub_diag. }
    rewrite nth_error_app2 in Hn by lia.
    destruct (length dir - length pre) as [|m] eqn:Em; [lia|]. cbn in Hn.
    apply Nse. eapply nth_error_In; eauto. }
  split.
  - unfold format_of. now rewrite ext_none.
  - destruct (C16_extension (dir ++ sep :: base)) as (p & E & Lp & [[Es _]|(e & _ & X & _)]).
    + rewrite E. f_equal. apply (f_equal (@length _)) in Es. rewrite skipn_length in Es. cbn [length] in Es. lia.
    + exfalso. eapply N; eauto.
Qed.
Print Assumptions C16_directory.

(** Names ending with the same extension can have different formats: a name that is
    nothing but an extension has none, unless a directory stands before it. *)
Theorem C16_format_of_extension_refuted :
  exists n1 n2 e dflt, ends_with n1 e /\ ends_with n2 e /\ e <> txt "o" /\
    format_of (Some n1) dflt <> format_of (Some n2) dflt.
Proof.
  exists (txt ".meshb"), (txt "d/.meshb"), (txt "meshb"), MeditASCII.
  assert (A : ~ In dotc (txt "meshb")) by (cbn; intuition discriminate).
  assert (B : ~ In sep (txt "meshb")) by (cbn; intuition discriminate).
  repeat split; auto.
  - exists []. reflexivity.
  - exists (txt "d/"). reflexivity.
  - discriminate.
  - vm_compute. discriminate.
Qed.
Print Assumptions C16_format_of_extension_refuted.

(** An extension that is not a known one can be reported as known. *)
Theorem C16_exact_refuted :
  exists name e dflt, has_ext name e /\ ~ In e (map fst known) /\ format_of (Some name) dflt <> dflt.
Proof.
  exists (txt "cube.vtkold"), (txt "vtkold"), MeditASCII. split; [|split].
  - repeat split; try (cbn; intuition discriminate); try discriminate.
    exists (txt "cube"). split; [discriminate|reflexivity].
  - cbn. intuition discriminate.
  - vm_compute. discriminate.
Qed.
Print Assumptions C16_exact_refuted.

(** ** Output names *)

Lemma strcpy_ok cap s : length s < cap -> strcpy cap s = Ret s.
Proof. intros H. unfold strcpy. apply Nat.ltb_lt in H. now rewrite H. Qed.

Lemma strcat_ok cap s t : length s + length t < cap -> strcat cap s t = Ret (s ++ t).
Proof. intros H. unfold strcat. apply Nat.ltb_lt in H. now rewrite H. Qed.

Lemma suffix_len f : length (suffix f) <= 6.
Proof. destruct f; vm_compute; lia. Qed.

Lemma osuffix_len f : length (osuffix f) <= 8.
Proof. destruct f; vm_compute; lia. Qed.

Lemma cut_len f p : length (cut f p) <= length f.
Proof. destruct p; cbn; [rewrite firstn_length; lia|lia]. Qed.

(** The format with which an output is written when the input has format [f]: those
    without a writer become ASCII Medit. *)
Definition writable (f : format) : format :=
  match f with VtkPvtp | VtkPvtu | Tetgen | Unknown => MeditASCII | f => f end.

Lemma suffix_writable f :
  exists e, suffix f = dotc :: e /\ In (e, writable f) known /\ ~ In dotc e /\ ~ In sep e /\ e <> txt "o".
Proof.
  destruct f; eexists; (split; [reflexivity|]); (repeat split);
    try (cbn; intuition congruence); try discriminate; cbn; intuition discriminate.
Qed.

Lemma osuffix_suffix f : osuffix f = txt ".o" ++ suffix f.
Proof. destruct f; reflexivity. Qed.

Lemma suffixed_format s f dflt : s <> [] -> format_of (Some (s ++ suffix f)) dflt = writable f.
Proof.
  intros Hs. destruct (suffix_writable f) as (e & E & I & Nd & Ns & No).
  apply C16_known with e; [|exact I]. rewrite E. repeat split; auto. exists s. auto.
Qed.

(** A name with no dot, or whose only dot comes first, gets an extension, the one of
    the input; any other name is kept.  Nothing is written out of bounds. *)
Theorem C16_output_partial n s :
  s <> [] ->
  exists r, Set_outputMeshName true n (Some s) = Ret (true, set_m_out n (Some r)) /\
    ((~ In dotc (tl s)) ->
       r = s ++ suffix (format_of (m_in n) MeditASCII) /\
       forall dflt, format_of (Some r) dflt = writable (format_of (m_in n) MeditASCII)) /\
    (In dotc (tl s) -> r = s).
Proof.
  intros Hs. unfold Set_outputMeshName. cbn [negb].
  destruct s as [|c s]; [congruence|]. cbn [given].
  rewrite !strcpy_ok by lia. cbn [bind].
  assert (U : forall p, is_unknown (Get_format (Some p) MeditASCII) = false).
  { intros p. unfold Get_format. repeat (destruct (starts _ p); [reflexivity|]). reflexivity. }
  destruct (strrchr dotc (c :: s)) as [p|] eqn:Ep.
  - rewrite U. cbn [orb]. destruct (Nat.eqb_spec p 0) as [->|Np].
    + apply strrchr_some in Ep. destruct Ep as (a & b & E & L & N).
      destruct a; [|discriminate]. cbn in E. injection E as -> ->.
      set (f := format_of (m_in (set_m_out n None)) MeditASCII).
      exists ((dotc :: b) ++ suffix f). rewrite strcat_ok by (pose proof (suffix_len f); lia). cbn [bind].
      split; [reflexivity|]. split.
      * intros _. split; [reflexivity|]. intros dflt. apply suffixed_format. discriminate.
      * cbn [tl]. tauto.
    + exists (c :: s). cbn [bind]. split; [reflexivity|]. split; [|reflexivity].
      intros N. exfalso. apply N. apply strrchr_some in Ep. destruct Ep as (a & b & E & L & _).
      destruct a; cbn in L; [congruence|]. cbn in E. injection E as -> ->. cbn. apply in_or_app. right. now left.
  - set (f := format_of (m_in (set_m_out n None)) MeditASCII).
    exists ((c :: s) ++ suffix f). rewrite strcat_ok by (pose proof (suffix_len f); lia). cbn [bind].
    split; [reflexivity|]. split.
    + intros _. split; [reflexivity|]. intros dflt. apply suffixed_format. discriminate.
    + cbn [tl]. intros I. exfalso. apply strrchr_none in Ep. apply Ep. now right.
Qed.
Print Assumptions C16_output_partial.

(** Without a name given, the output is the input with [.o] before its extension,
    and it has the format of the input whenever that can be written. *)
Theorem C16_output_default n f s :
  m_in n = Some f -> f <> [] -> (s = None \/ s = Some []) ->
  exists stem, Set_outputMeshName true n s
      = Ret (true, set_m_out n (Some (stem ++ txt ".o" ++ suffix (format_of (Some f) MeditASCII)))) /\
    (forall e, has_ext f e -> f = stem ++ dotc :: e) /\
    ((forall e, ~ has_ext f e) -> stem = f) /\
    forall dflt, format_of (Some (stem ++ txt ".o" ++ suffix (format_of (Some f) MeditASCII))) dflt
                 = writable (format_of (Some f) MeditASCII).
Proof.
  intros Hi Hf Hs. unfold Set_outputMeshName. cbn [negb].
  replace (given s) with (@None (list ascii)) by (destruct Hs as [->| ->]; reflexivity).
  cbn [m_in set_m_out]. rewrite Hi. replace (given (Some f)) with (Some f) by (destruct f; [congruence|reflexivity]).
  rewrite strcpy_ok by lia. cbn [bind].
  change (Get_format (at_ (Some f) (Get_filenameExt (Some f))) MeditASCII) with (format_of (Some f) MeditASCII).
  destruct (C16_extension f) as (p & Ep & Lp & D). rewrite Ep.
  exists (firstn p f).
  rewrite strcat_ok.
  2:{ pose proof (osuffix_len (format_of (Some f) MeditASCII)). pose proof (cut_len f (Some p)). lia. }
  cbn [bind cut]. rewrite osuffix_suffix.
  split; [reflexivity|].
  split; [|split].
  - intros e X. destruct D as [[_ N]|(e' & E & _ & U)]; [exfalso; eapply N; eauto|].
    rewrite (U e X). rewrite <- E. symmetry. apply firstn_skipn.
  - intros N. destruct D as [[E _]|(e' & _ & X & _)]; [|exfalso; eapply N; eauto].
    rewrite <- (firstn_skipn p f) at 2. rewrite E. now rewrite app_nil_r.
  - intros dflt. rewrite app_assoc. apply suffixed_format. destruct (firstn p f); discriminate.
Qed.
Print Assumptions C16_output_default.

Example C16_out_examples :
  let n := mkNames (Some (txt "d.1/cube.mshb")) None None None in
  (' (_, n) <- Set_outputMeshName true n (Some (txt "out")) ;; Ret (m_out n)) = Ret (Some (txt "out.mshb")) /\
  (' (_, n) <- Set_outputMeshName true n None ;; Ret (m_out n)) = Ret (Some (txt "d.1/cube.o.mshb")) /\
  (' (_, n) <- Set_outputMeshName true n (Some (txt ".x")) ;; Ret (m_out n)) = Ret (Some (txt ".x.mshb")).
Proof. repeat split; vm_compute; reflexivity. Qed.

(** A name without known extension can be left without any: the comparison with
    [MMG5_FMT_Unknown] at :289 never holds, since the default passed is 0. *)
Theorem C16_output_refuted :
  exists n s r, Set_outputMeshName true n (Some s) = Ret (true, set_m_out n (Some r)) /\
    (forall e, ~ has_ext s e) /\ r = s.
Proof.
  exists (mkNames None None None None), (txt "v1.2/cube"), (txt "v1.2/cube"). split; [|split].
  - vm_compute. reflexivity.
  - intros e X. apply ext_some in X. vm_compute in X. discriminate.
  - reflexivity.
Qed.
Print Assumptions C16_output_refuted.

Theorem C16_output_unknown_refuted :
  exists n s e r, Set_outputMeshName true n (Some s) = Ret (true, set_m_out n (Some r)) /\
    has_ext s e /\ (forall k f, In (k, f) known -> ~ exists q, e = k ++ q) /\ r = s.
Proof.
  exists (mkNames None None None None), (txt "cube.xyz"), (txt "xyz"), (txt "cube.xyz"). split; [|split; [|split]].
  - vm_compute. reflexivity.
  - repeat split; try (cbn; intuition discriminate); try discriminate.
    exists (txt "cube"). split; [discriminate|reflexivity].
  - intros k f I [q E]. cbn in I.
    repeat (destruct I as [I|I]; [injection I as <- <-; discriminate|]). inversion I.
  - reflexivity.
Qed.
Print Assumptions C16_output_unknown_refuted.

(** ** Names of solutions *)

Lemma strstr_dot e : ~ In dotc e -> strstr (dotc :: e) (txt ".mesh") = if starts (txt "mesh") e then Some 0 else None.
Proof.
  intros N. cbn [strstr]. rewrite starts_dot. destruct (starts (txt "mesh") e); [reflexivity|].
  assert (H : strstr e (txt ".mesh") = None); [|now rewrite H].
  induction e as [|c e IH]; [reflexivity|]. cbn [strstr].
  destruct (starts (txt ".mesh") (c :: e)) eqn:S.
  - exfalso. apply starts_app in S. destruct S as [q E]. cbn in E. injection E as -> _. apply N. now left.
  - rewrite IH; [reflexivity|]. intros I. apply N. now right.
Qed.

(** The name is cut at the last dot when the characters after it begin with [mesh],
    and [.sol] is appended. *)
Lemma mesh_dot_spec f :
  (forall pre q, f = pre ++ txt ".mesh" ++ q -> ~ In dotc q -> mesh_dot f = Some (length pre)) /\
  ((forall pre q, f = pre ++ txt ".mesh" ++ q -> In dotc q) -> mesh_dot f = None).
Proof.
  unfold mesh_dot. destruct (strrchr dotc f) as [d|] eqn:Ed.
  - apply strrchr_some in Ed. destruct Ed as (a & b & E & L & N).
    rewrite E, <- L, skipn_exact, strstr_dot by exact N. split.
    + intros pre q E' N'. change (txt ".mesh" ++ q) with (dotc :: txt "mesh" ++ q) in E'.
      apply app_inj_last in E'; auto.
      * destruct E' as [-> ->]. replace (starts (txt "mesh") (txt "mesh" ++ q)) with true; [f_equal; lia|].
        symmetry. apply starts_app. eauto.
      * intros I. apply in_app_or in I. destruct I as [I|I]; [|tauto]. cbn in I. intuition discriminate.
    + intros H. destruct (starts (txt "mesh") b) eqn:S; [|reflexivity]. exfalso.
      apply starts_app in S. destruct S as [q ->]. apply N. apply in_or_app. right. apply (H a q).
      reflexivity.
  - split; [|reflexivity]. intros pre q E _. exfalso. apply strrchr_none in Ed. apply Ed. rewrite E.
    apply in_or_app. right. now left.
Qed.

(** Name of the input solution: that of the mesh with its Medit extension replaced. *)
Theorem C16_input_sol_partial n f s :
  m_in n = Some f -> f <> [] -> (s = None \/ s = Some []) ->
  (forall stem q, f = stem ++ txt ".mesh" ++ q -> ~ In dotc q ->
     Set_inputSolName true n s = Ret (true, set_s_in n (Some (stem ++ txt ".sol")))) /\
  ((forall stem q, f = stem ++ txt ".mesh" ++ q -> In dotc q) ->
     Set_inputSolName true n s = Ret (true, set_s_in n (Some (f ++ txt ".sol")))).
Proof.
  intros Hi Hf Hs. unfold Set_inputSolName. cbn [negb].
  replace (given s) with (@None (list ascii)) by (destruct Hs as [->| ->]; reflexivity).
  cbn [m_in set_s_in]. rewrite Hi. replace (given (Some f)) with (Some f) by (destruct f; [congruence|reflexivity]).
  rewrite strcpy_ok by lia. cbn [bind]. destruct (mesh_dot_spec f) as [D1 D2]. split.
  - intros stem q E N. rewrite (D1 stem q E N). cbn [cut]. rewrite E, firstn_exact.
    rewrite strcat_ok by (cbn; lia). reflexivity.
  - intros H. rewrite (D2 H). cbn [cut]. rewrite strcat_ok by (cbn; lia). reflexivity.
Qed.
Print Assumptions C16_input_sol_partial.

Theorem C16_output_sol_partial n f s :
  m_out n = Some f -> f <> [] -> (s = None \/ s = Some []) ->
  (forall stem q, f = stem ++ txt ".mesh" ++ q -> ~ In dotc q ->
     Set_outputSolName true n s = Ret (true, set_s_out n (Some (stem ++ txt ".sol")))) /\
  ((forall stem q, f = stem ++ txt ".mesh" ++ q -> In dotc q) ->
     Set_outputSolName true n s = Ret (true, set_s_out n (Some (f ++ txt ".sol")))).
Proof.
  intros Hi Hf Hs. unfold Set_outputSolName.
  replace (given s) with (@None (list ascii)) by (destruct Hs as [->| ->]; reflexivity).
  cbn [m_out set_s_out negb]. rewrite Hi. replace (given (Some f)) with (Some f) by (destruct f; [congruence|reflexivity]).
  destruct (mesh_dot_spec f) as [D1 D2]. split.
  - intros stem q E N. rewrite (D1 stem q E N). rewrite strcpy_ok by lia. cbn [bind].
    rewrite (D1 stem q E N). cbn [cut]. rewrite E, firstn_exact.
    rewrite strcat_ok by (cbn; lia). reflexivity.
  - intros H. rewrite (D2 H). rewrite strcpy_ok by lia. cbn [bind]. rewrite (D2 H). cbn [cut].
    rewrite strcat_ok by (cbn; lia). reflexivity.
Qed.
Print Assumptions C16_output_sol_partial.

Example C16_sol_examples :
  let n := mkNames (Some (txt "a.mesh.meshb")) (Some (txt "b.vtu")) None None in
  (' (_, n) <- Set_inputSolName true n None ;; Ret (s_in n)) = Ret (Some (txt "a.mesh.sol")) /\
  (' (_, n) <- Set_outputSolName true n None ;; Ret (s_out n)) = Ret (Some (txt "b.vtu.sol")).
Proof. split; vm_compute; reflexivity. Qed.

(** A directory whose name contains [.mesh] is mistaken for an extension: the
    solution is looked for, and written, outside the directory of the mesh. *)
Theorem C16_sol_directory_refuted :
  exists n dir base r, ~ In dotc base /\ ~ In sep base /\ m_in n = Some (dir ++ sep :: base) /\
    Set_inputSolName true n None = Ret (true, set_s_in n (Some r)) /\ ~ In sep r.
Proof.
  exists (mkNames (Some (txt "a.meshes/cube")) None None None), (txt "a.meshes"), (txt "cube"), (txt "a.sol").
  repeat split; try (vm_compute; reflexivity); cbn; intuition discriminate.
Qed.
Print Assumptions C16_sol_directory_refuted.

Theorem C16_output_sol_directory_refuted :
  exists n dir base r, ~ In dotc base /\ ~ In sep base /\
    (' (_, n) <- Set_outputMeshName true n (Some (dir ++ sep :: base)) ;;
     ' (_, n) <- Set_outputSolName true n None ;; Ret (s_out n)) = Ret (Some r) /\ ~ In sep r.
Proof.
  exists (mkNames None None None None), (txt "a.meshes"), (txt "cube"), (txt "a.sol").
  repeat split; try (vm_compute; reflexivity); cbn; intuition discriminate.
Qed.
Print Assumptions C16_output_sol_directory_refuted.

(** None of the setters writes out of bounds, whatever the names and memory. *)
Theorem C16_bounds mem n s :
  Set_inputMeshName mem n s <> Stuck /\ Set_inputSolName mem n s <> Stuck /\
  Set_outputMeshName mem n s <> Stuck /\ Set_outputSolName mem n s <> Stuck.
Proof.
  repeat split.
  - unfold Set_inputMeshName. destruct mem; cbn [negb]; [|discriminate].
    destruct (given s); [rewrite strcpy_ok by lia; discriminate | vm_compute; discriminate].
  - unfold Set_inputSolName. destruct mem; cbn [negb]; [|discriminate].
    destruct (given s); [rewrite strcpy_ok by lia; discriminate|].
    cbn [m_in set_s_in]. destruct (given (m_in n)) as [f|]; [|vm_compute; discriminate].
    rewrite strcpy_ok by lia. cbn [bind]. rewrite strcat_ok by (cbn; lia). discriminate.
  - unfold Set_outputMeshName. destruct mem; cbn [negb]; [|discriminate].
    destruct (given s) as [t|].
    + rewrite !strcpy_ok by lia. cbn [bind].
      match goal with |- context [if ?b then _ else _] => destruct b end; [|discriminate].
      rewrite strcat_ok; [discriminate|].
      match goal with |- context [suffix ?f] => pose proof (suffix_len f) end. lia.
    + cbn [m_in set_m_out]. destruct (given (m_in n)) as [f|]; [|vm_compute; discriminate].
      rewrite strcpy_ok by lia. cbn [bind]. rewrite strcat_ok; [discriminate|].
      match goal with |- context [osuffix ?f] => pose proof (osuffix_len f) end.
      match goal with |- context [cut ?f ?p] => pose proof (cut_len f p) end. lia.
  - unfold Set_outputSolName. destruct (given s).
    + destruct mem; cbn [negb]; [|discriminate]. rewrite strcpy_ok by lia; discriminate.
    + cbn [m_out set_s_out]. destruct (given (m_out n)) as [f|]; [|discriminate].
      destruct mem; cbn [negb]; [|discriminate].
      rewrite strcpy_ok by (destruct (mesh_dot f); lia). cbn [bind].
      rewrite strcat_ok by (cbn; lia). discriminate.
Qed.
Print Assumptions C16_bounds.

(** ** Paths *)

Theorem C16_path dir base :
  ~ In sep base ->
  Get_basename (dir ++ sep :: base) = base /\ Get_path (Some (dir ++ sep :: base)) = Some dir /\
  Get_basename base = base /\ Get_path (Some base) = None.
Proof.
  intros N. unfold Get_basename, Get_path.
  replace (strrchr sep (dir ++ sep :: base)) with (Some (length dir)).
  2:{ symmetry. apply strrchr_some. eauto. }
  apply strrchr_none in N. rewrite N. rewrite firstn_exact. repeat split.
  change (sep :: base) with ([sep] ++ base). rewrite app_assoc.
  replace (length dir + 1) with (length (dir ++ [sep])) by (rewrite app_length; reflexivity).
  apply skipn_exact.
Qed.
Print Assumptions C16_path.

(** [MMG5_Remove_ext] looks for the first occurrence of the extension, so a
    directory containing it hides the one to remove. *)
Theorem C16_remove_refuted :
  exists dir base ext, ~ In sep base /\ Remove_ext (Some (base ++ ext)) (Some ext) = Some base /\
    Remove_ext (Some (dir ++ sep :: base ++ ext)) (Some ext) <> Some (dir ++ sep :: base).
Proof.
  exists (txt "a.mesh"), (txt "cube"), (txt ".mesh"). repeat split; try (vm_compute; reflexivity).
  - cbn; intuition discriminate.
  - vm_compute. discriminate.
Qed.
Print Assumptions C16_remove_refuted.

Lemma strstr_none_app k p : strstr p k = None <-> forall a b, p <> a ++ k ++ b.
Proof.
  induction p as [|x p IH]; cbn [strstr].
  - destruct (starts k []) eqn:S.
    + split; [discriminate|]. intros H. apply starts_app in S. destruct S as [q E]. exfalso. apply (H [] q). exact E.
    + split; [|reflexivity]. intros _ a b E. destruct a; [|discriminate].
      assert (starts k [] = true) by (apply starts_app; eauto). congruence.
  - destruct (starts k (x :: p)) eqn:S.
    + split; [discriminate|]. intros H. apply starts_app in S. destruct S as [q E]. exfalso. apply (H [] q). exact E.
    + destruct (strstr p k) eqn:Ep.
      * split; [discriminate|]. intros H. exfalso.
        assert (X : forall a b, p <> a ++ k ++ b) by (intros a b E; apply (H (x :: a) b); cbn; now f_equal).
        apply IH in X. discriminate.
      * split; [|reflexivity]. intros _ a b E. destruct a as [|y a].
        -- assert (starts k (x :: p) = true) by (apply starts_app; eauto). congruence.
        -- cbn in E. injection E as -> E. destruct IH as [IH _]. eapply IH; eauto.
Qed.

Lemma strstr_first stem k : k <> [] ->
  (forall a b, a <> [] \/ b <> [] -> stem ++ k = a ++ k ++ b -> b = []) ->
  strstr (stem ++ k) k = Some (length stem).
Proof.
  intros Hk. induction stem as [|x s IH]; intros H.
  - cbn [app length]. destruct k as [|c k]; [congruence|]. cbn [strstr].
    replace (starts (c :: k) (c :: k)) with true; [reflexivity|]. symmetry. apply starts_app. exists []. now rewrite app_nil_r.
  - cbn [app strstr]. destruct (starts k (x :: s ++ k)) eqn:S.
    + exfalso. apply starts_app in S. destruct S as [q E].
      assert (q = []).
      { destruct q as [|y q]; [reflexivity|]. apply (H [] (y :: q)); [right; discriminate|exact E]. }
      subst q. apply (f_equal (@length _)) in E. cbn in E. rewrite !app_length in E. cbn in E. lia.
    + rewrite IH; [reflexivity|]. intros a b _ E. apply (H (x :: a) b); [left; discriminate|]. cbn. now f_equal.
Qed.

(** When the extension occurs only at the end it is removed. *)
Theorem C16_remove_partial stem ext :
  ext <> [] -> ~ In sep ext -> (forall a b, stem ++ ext = a ++ ext ++ b -> b = []) ->
  Remove_ext (Some (stem ++ ext)) (Some ext) = Some stem.
Proof.
  intros He Ns H. unfold Remove_ext. replace (given (Some ext)) with (Some ext) by (destruct ext; [congruence|reflexivity]).
  rewrite strstr_first by (auto; intros a b _; apply H).
  replace (beyond (strrchr sep (stem ++ ext)) (length stem)) with false.
  - now rewrite firstn_exact.
  - symmetry. unfold beyond. destruct (strrchr sep (stem ++ ext)) as [l|] eqn:El; [|reflexivity].
    apply Nat.ltb_ge. destruct (Nat.le_gt_cases l (length stem)) as [X|X]; [exact X|]. exfalso.
    apply strrchr_some in El. destruct El as (a & b & E & L & _).
    assert (Hn : nth_error (stem ++ ext) l = Some sep).
    { rewrite E, <- L, nth_error_app2 by lia. now rewrite Nat.sub_diag. }
    rewrite nth_error_app2 in Hn by lia. apply Ns. eapply nth_error_In; eauto.
Qed.
Print Assumptions C16_remove_partial.

(** ** C45: the parameter file *)

(** The files tried, in order, for a mesh called [stem] or [stem.e]. *)
Definition tried (stem : list ascii) : list (list ascii) :=
  [stem ++ txt ".mmg3d"; stem ++ txt ".mmg3d" ++ txt ".mmg3d5"; txt "DEFAULT.mmg3d"; txt "DEFAULT.mmg3d5"].

(** For names of at most 242 characters the first file that exists is opened. *)
Theorem C45_partial ex name :
  length name <= 242 ->
  exists stem, ((forall e, has_ext name e -> name = stem ++ dotc :: e) /\
                ((forall e, ~ has_ext name e) -> stem = name)) /\
    parsop3d_open ex (Some name) None
    = Ret (match find ex (tried stem) with Some f => Opened f | None => Default end).
Proof.
  intros L. destruct (C16_extension name) as (p & Ep & Lp & D).
  exists (firstn p name). split.
  - split.
    + intros e X. destruct D as [[_ N]|(e' & E & _ & U)]; [exfalso; eapply N; eauto|].
      rewrite (U e X). rewrite <- E. symmetry. apply firstn_skipn.
    + intros N. destruct D as [[E _]|(e' & _ & X & _)]; [|exfalso; eapply N; eauto].
      rewrite <- (firstn_skipn p name) at 2. rewrite E. now rewrite app_nil_r.
  - unfold parsop3d_open. rewrite strcpy_ok by lia. cbn [bind]. rewrite Ep. cbn [cut].
    assert (Lf : length (firstn p name) <= 242) by (rewrite firstn_length; lia).
    rewrite strcat_ok by (change (length (txt ".mmg3d")) with 6; lia). cbn [bind tried find].
    destruct (ex (firstn p name ++ txt ".mmg3d")); [reflexivity|].
    rewrite strcat_ok by (rewrite app_length; change (length (txt ".mmg3d")) with 6; change (length (txt ".mmg3d5")) with 7; lia).
    cbn [bind]. rewrite <- app_assoc.
    destruct (ex (firstn p name ++ txt ".mmg3d" ++ txt ".mmg3d5")); [reflexivity|].
    rewrite strcpy_ok by (vm_compute; lia). cbn [bind]. destruct (ex (txt "DEFAULT.mmg3d")); [reflexivity|].
    rewrite strcpy_ok by (vm_compute; lia). cbn [bind]. destruct (ex (txt "DEFAULT.mmg3d5")); reflexivity.
Qed.
Print Assumptions C45_partial.

(** A parameter file given by the user with its proper extension is the one opened,
    and when it does not exist the call fails. *)
Theorem C45_given_partial ex namein stem :
  length stem <= 249 -> stem <> [] ->
  parsop3d_open ex namein (Some (stem ++ txt ".mmg3d"))
  = Ret (if ex (stem ++ txt ".mmg3d") then Opened (stem ++ txt ".mmg3d") else NotFound).
Proof.
  intros L Hs. unfold parsop3d_open.
  rewrite strcpy_ok by (rewrite app_length; change (length (txt ".mmg3d")) with 6; lia). cbn [bind].
  assert (X : has_ext (stem ++ txt ".mmg3d") (txt "mmg3d")).
  { repeat split; try (cbn; intuition discriminate); try discriminate. exists stem. auto. }
  destruct (C16_extension (stem ++ txt ".mmg3d")) as (p & Ep & Lp & [[_ N]|(e & E & _ & U)]).
  { exfalso. eapply N; eauto. }
  rewrite Ep. cbn [cut]. pose proof (U _ X) as E'. subst e.
  assert (Hf : firstn p (stem ++ txt ".mmg3d") = stem).
  { pose proof (firstn_skipn p (stem ++ txt ".mmg3d")) as F. rewrite E in F.
    apply (app_inv_tail (txt ".mmg3d")). exact F. }
  rewrite Hf. rewrite strcat_ok by (change (length (txt ".mmg3d")) with 6; lia). cbn [bind].
  destruct (ex _); reflexivity.
Qed.
Print Assumptions C45_given_partial.

Example C45_example :
  parsop3d_open (fun f => streq f (txt "DEFAULT.mmg3d")) (Some (txt "cube.mesh")) None = Ret (Opened (txt "DEFAULT.mmg3d")) /\
  parsop3d_open (fun f => streq f (txt "a.b/cube.mmg3d")) (Some (txt "a.b/cube")) None = Ret (Opened (txt "a.b/cube.mmg3d")).
Proof. split; vm_compute; reflexivity. Qed.

(** Longer names overflow the buffer of 256 bytes. *)
Theorem C45_overflow_refuted :
  exists ex name, parsop3d_open ex (Some name) None = Stuck.
Proof. exists (fun _ => false), (repeat "x"%char 256). vm_compute. reflexivity. Qed.
Print Assumptions C45_overflow_refuted.

Theorem C45_overflow name fparam ex :
  length name >= 256 -> parsop3d_open ex fparam (Some name) = Stuck /\ parsop3d_open ex (Some name) None = Stuck.
Proof.
  intros L. unfold parsop3d_open.
  assert (H : strcpy 256 name = Stuck).
  { unfold strcpy. destruct (Nat.ltb_spec (length name) 256); [lia|reflexivity]. }
  rewrite H. split; reflexivity.
Qed.

(** The file [stem.mmg3d5] is not among those tried, although it is present. *)
Theorem C45_legacy_refuted :
  exists ex stem, ex (stem ++ txt ".mmg3d5") = true /\
    parsop3d_open ex (Some (stem ++ txt ".mesh")) None = Ret Default.
Proof.
  exists (fun f => streq f (txt "cube.mmg3d5")), (txt "cube"). split; vm_compute; reflexivity.
Qed.
Print Assumptions C45_legacy_refuted.

(** A parameter file given with another extension is not opened, although it exists. *)
Theorem C45_given_refuted :
  exists ex f namein, ex f = true /\ parsop3d_open ex namein (Some f) = Ret NotFound.
Proof.
  exists (fun f => streq f (txt "sizes.txt")), (txt "sizes.txt"), None. split; vm_compute; reflexivity.
Qed.
Print Assumptions C45_given_refuted.
