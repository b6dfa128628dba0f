(** What the symbols of Alt-Svc and Link mean, given how parts of them are
    parsed again. *)
From Coq Require Import ZifyBool ZifyNat ZifyN Permutation String.
From Verif Require Import Base Earley EarleySpec Parse Grammar GrammarSem GrammarLang GrammarWF GrammarVals GrammarCalc
  Syntax Actions Nested Reading HttpText P_Earley SyntaxTags P_Grammar HttpValues SyntaxVals SyntaxDen SyntaxParts SyntaxKit SyntaxMore SyntaxFields SyntaxAgents P_Syntax P_Fields UriText SyntaxUri P_Uri MoreValues SyntaxLang SyntaxExt SyntaxRest P_More P_Types AgainValues.
Open Scope nat_scope.
Open Scope list_scope.
Unset Strict Implicit.
Local Open Scope string_scope.
Local Open Scope list_scope.

(** As [reads_as], for given functions that parse again. *)
Definition reads_in (nested : pyf -> list val -> val * list vcomplaint) (x : symbol) (spec : reading) : Prop := forall annotated data,
  ((exists v cs, spec data v cs) -> exists r, reads nested annotated x data (Accepted r)) /\
  (~ (exists v cs, spec data v cs) -> exists e, reads nested annotated x data (Rejected e)) /\
  (forall r, reads nested annotated x data (Accepted r) -> exists cs, spec data (pr_node r) cs /\ Permutation (pr_complaints r) cs).
Lemma means_in_is nested x S : is_M nested x S <-> means_in nested x S.
Proof. split; intros H w v cs; rewrite (H w v cs); split; intros [c [X P]]; exists c; (split; [exact X|now apply Permutation_sym]). Qed.
Lemma reads_in_intro nested x S : is_proper x -> is_M nested x S -> reads_in nested x S.
Proof.
  intros P E annotated data. apply means_in_is in E. destruct (@reads_complete nested annotated x data P) as [A B]. split; [|split].
  - intros [v [cs H]]. apply A. exists v, cs. apply E. eauto.
  - intros NH. apply B. intros [v [cs H]]. apply E in H. destruct H as [cs' [H _]]. eauto.
  - intros r H. apply reads_accepted in H. apply E in H. exact H.
Qed.
Lemma reads_in_loose nested x S S' : loosens S S' -> reads_in nested x S -> reads_in nested x S'.
Proof.
  intros [H1 H2] R a w. destruct (R a w) as (A & B & C). split; [auto|]. split.
  - intro N. apply B. intros (v & cs & H). apply N. eauto.
  - intros r H. destruct (C r H) as (cs & X & P). eauto.
Qed.

(** [again] is what [parse()] returns. *)
Definition decides (nst : pyf -> list val -> val * list vcomplaint) (again : symbol -> str -> option (val * list vcomplaint)) : Prop :=
  forall x w, is_proper x ->
  match again x w with
  | Some (v, cs) => exists annotated r, reads nst annotated x w (Accepted r) /\ pr_node r = v /\ pr_complaints r = cs
  | None => exists annotated e, reads nst annotated x w (Rejected e)
  end.

Lemma again_reads nst again x S : decides nst again -> is_proper x -> reads_as x S -> forall t,
  (exists v c c', again x t = Some (v, c) /\ S t v c' /\ Permutation c c') \/ again x t = None /\ ~ exists v c, S t v c.
Proof.
  intros D P R t. specialize (D x t P). destruct (again x t) as [[v c]|].
  - destruct D as (a & r & H & <- & <-). destruct (R nst a t) as (_ & _ & C). destruct (C r H) as (c' & X & Q). left. eauto 8.
  - destruct D as (a & e & H). right. split; [reflexivity|]. intro X. destruct (R nst a t) as (A & _). destruct (A X) as (r & H').
    pose proof (returns_unique H H') as E. discriminate E.
Qed.

(** ** What is parsed again in Link *)
Lemma alnum_bits c : N.testbit (bits_of (alt ALPHA DIGIT)) c = is_alnum c.
Proof. revert c. unfold is_alnum. octet_tac. Qed.
Lemma restricted_bits c : N.testbit (bits_of restricted_name_chars) c = is_restricted c.
Proof. revert c. unfold is_restricted, is_alnum. octet_tac. Qed.
Lemma restricted_textual n : GrammarVals.textual rec_rules (pyfun n) restricted_name restricted_text.
Proof.
  apply textual_seal; [reflexivity|]. eapply textual_ext; [apply textual_add; [apply (@class_one n restricted_name_first (Some (s "restricted-name-first")) (bits_of (alt ALPHA DIGIT))); [reflexivity|apply alnum_bits]|
    apply (@sized_textual n restricted_name_chars (Some (s "restricted-name-chars")) (bits_of restricted_name_chars) is_restricted 0 126); [reflexivity|apply restricted_bits|lia|lia]]|].
  intro w. unfold restricted_text. split.
  - intros (x & y & -> & (c & -> & C) & (R & L)). exists c, y. split; [reflexivity|]. split; [exact C|]. split; [exact R|lia].
  - intros (c & x & -> & C & R & L). exists [c], x. split; [reflexivity|]. split; [exists c; auto|]. split; [exact R|lia].
Qed.
Lemma type_8288_M n : is_M n type_8288 link_type_text.
Proof.
  apply d_seal, n_M.
  assert (T : GrammarVals.textual rec_rules (pyfun n) (add (add type_name (lit "/")) subtype_name) (fun w => exists t u, w = t ++ 47%N :: u /\ restricted_text t /\ restricted_text u)).
  { eapply textual_ext; [apply textual_add; [apply textual_add; [apply textual_seal; [reflexivity|apply restricted_textual]|apply (@lit_textual n "/"); reflexivity]|apply textual_seal; [reflexivity|apply restricted_textual]]|].
    intro w. split.
    - intros (x & u & -> & (t & m & -> & T & ->) & U). exists t, u. split; [now rewrite <- app_assoc|auto].
    - intros (t & u & -> & T & U). exists (t ++ s "/"), u. split; [now rewrite <- app_assoc|]. split; [|exact U]. exists t, (s "/"). auto. }
  apply (n_py (F := FPy PCheckMediaType) (S := plain (fun w => exists t u, w = t ++ 47%N :: u /\ restricted_text t /\ restricted_text u) (named "MediaType"))); [vis|apply n_class, T|].
  intros w v cs. unfold plain, link_type_text. destruct (mistaken_spec w) as (d & Dd & E & U).
  assert (C : call_func (pyfun n) (FPy PCheckMediaType) [named "MediaType" w] = check_media_type (named "MediaType" w)) by reflexivity. split.
  - intros (X & -> & Y). exists (named "MediaType" w), [], cs. split; [auto|]. split; [|reflexivity]. rewrite C, (U _ Y). exact E.
  - intros (u & c & k & (X & -> & ->) & Q & ->). split; [exact X|]. rewrite C, E in Q. injection Q as <- <-. auto.
Qed.
Lemma type_reads : reads_as type_8288 link_type_text.
Proof. apply read_M; [reflexivity|]. intro n. apply type_8288_M. Qed.

Lemma named_iff n m : is_lower [m] = true -> str_eqb (map lower_c n) (s m) = true <-> same_text m n.
Proof. intro L. rewrite name_iff by exact L. rewrite same_text_lower. unfold same_name. split; congruence. Qed.
Lemma syntax_reading n x : link_param_syntax (map lower_c n) = Some x -> exists m S, In (m, S) link_readings /\ same_text m n /\ is_proper x /\ reads_as x S.
Proof.
  destruct C104_nodes_and_relations as (_ & _ & R1 & R2 & _). destruct C97_uris as (_ & R3 & _). destruct C99_dispositions as (R4 & _). pose proof type_reads as R5.
  unfold link_param_syntax, link_readings. cbn [In].
  destruct (str_eqb (map lower_c n) (s "anchor")) eqn:E1; [intro H; injection H as <-; apply named_iff in E1; [|reflexivity]; do 2 eexists; split; [left; reflexivity|]; split; [exact E1|]; split; [reflexivity|exact R3]|].
  destruct (str_eqb (map lower_c n) (s "rel")) eqn:E2; [intro H; injection H as <-; apply named_iff in E2; [|reflexivity]; do 2 eexists; split; [right; left; reflexivity|]; split; [exact E2|]; split; [reflexivity|exact R1]|].
  destruct (str_eqb (map lower_c n) (s "rev")) eqn:E3; [intro H; injection H as <-; apply named_iff in E3; [|reflexivity]; do 2 eexists; split; [right; right; left; reflexivity|]; split; [exact E3|]; split; [reflexivity|exact R1]|].
  destruct (str_eqb (map lower_c n) (s "hreflang")) eqn:E4; [intro H; injection H as <-; apply named_iff in E4; [|reflexivity]; do 2 eexists; split; [right; right; right; left; reflexivity|]; split; [exact E4|]; split; [reflexivity|exact R2]|].
  destruct (str_eqb (map lower_c n) (s "type")) eqn:E5; [intro H; injection H as <-; apply named_iff in E5; [|reflexivity]; do 2 eexists; split; [right; right; right; right; left; reflexivity|]; split; [exact E5|]; split; [reflexivity|exact R5]|].
  destruct (str_eqb (map lower_c n) (s "title*")) eqn:E6; [intro H; injection H as <-; apply named_iff in E6; [|reflexivity]; do 2 eexists; split; [right; right; right; right; right; left; reflexivity|]; split; [exact E6|]; split; [reflexivity|exact R4]|].
  discriminate.
Qed.
Lemma syntax_none n : link_param_syntax (map lower_c n) = None -> ~ exists m S, In (m, S) link_readings /\ same_text m n.
Proof.
  intros H (m & S & I & T). assert (J : In m (map fst link_readings)) by (apply in_map_iff; exists (m, S); auto). cbn [map fst link_readings In] in J.
  apply same_text_lower in T. unfold link_param_syntax in H. rewrite <- T in H.
  repeat match type of J with _ \/ _ => destruct J as [<-|J]; [vm_compute in H; discriminate H|] end. exact J.
Qed.

Section Again.
Variable nst : pyf -> list val -> val * list vcomplaint.
Variable again : symbol -> str -> option (val * list vcomplaint).
Hypothesis D : decides nst again.
Notation nested := (Nested.nested again).
Notation pf := (pyfun nested).
Notation textual := (textual rec_rules pf).
Notation V := (V rec_rules pf).
Notation A := (A rec_rules pf).
Notation is_M := (is_M nested).
Notation N_ := (SyntaxKit.N nested).

(** ** Alt-Svc *)
Lemma inner_textual n : GrammarVals.textual rec_rules (pyfun n) alt_authority_inner alt_place.
Proof.
  eapply textual_ext; [apply textual_add; [apply textual_add; [apply textual_maybe_str, host_textual|apply (@lit1 n ":"); reflexivity]|apply port_textual]|].
  intro w. unfold alt_place. split.
  - intros (x & p & -> & (h & m & -> & H & ->) & Q). exists h, p. rewrite <- app_assoc. split; [reflexivity|]. split; [|exact Q]. destruct H as [H| ->]; [exact H|left; constructor].
  - intros (h & p & -> & H & Q). exists (h ++ s ":"), p. rewrite <- app_assoc. split; [reflexivity|]. split; [|exact Q]. exists h, (s ":"). auto.
Qed.
Lemma inner_reads : reads_as alt_authority_inner (as_text alt_place).
Proof. apply text_reads; [reflexivity|]. intro n. apply inner_textual. Qed.
Lemma alt_authority_V : N_ alt_authority alt_authority_text.
Proof.
  apply n_seal; [reflexivity|]. apply n_M. apply (n_py (F := FPy PCheckAltAuthority) (S := quoted_text)); [apply vis_quoted|apply quoted_V|].
  intros w v cs. unfold alt_authority_text.
  assert (K : forall x, alt_place x /\ again alt_authority_inner x = Some (VStr x, []) \/ ~ alt_place x /\ again alt_authority_inner x = None).
  { intro x. destruct (@again_reads nst again alt_authority_inner _ D eq_refl inner_reads x) as [(u & c & c' & E & (P & -> & ->) & Q)|(E & X)].
    - apply Permutation_sym, Permutation_nil in Q. subst c. auto.
    - right. split; [|exact E]. intro P. apply X. exists (VStr x), []. repeat split. exact P. }
  assert (C : forall x, call_func pf (FPy PCheckAltAuthority) [VStr x] = parse_again again alt_authority_inner x 1257 [(s "authority", VStr x)]) by reflexivity.
  split.
  - intros (x & c & Q & H). exists (VStr x). rewrite C. unfold parse_again. destruct (K x) as [(P & ->)|(P & ->)].
    + destruct H as [(_ & -> & ->)|(P' & _)]; [|contradiction]. exists c, []. rewrite app_nil_r. auto.
    + destruct H as [(P' & _)|(_ & -> & ->)]; [contradiction|]. eexists _, _. split; [exact Q|]. split; reflexivity.
  - intros (u & c & k & Q & E & ->). pose proof Q as Q'. apply quoted_visible in Q'. destruct Q' as (x & ->). rewrite C in E. unfold parse_again in E. exists x, c. split; [exact Q|].
    destruct (K x) as [(P & F)|(P & F)]; rewrite F in E; [left; injection E as <- <-; rewrite app_nil_r; auto|right]. split; [exact P|]. apply (f_equal (fun p => (fst p, snd p))) in E. cbn [fst snd] in E. split; [exact (eq_sym (f_equal fst E))|]. f_equal. exact (eq_sym (f_equal snd E)).
Qed.
Lemma vis_authority : visible alt_authority_text.
Proof. intros w v cs (x & c & _ & [(_ & -> & _)|(_ & -> & _)]); discriminate. Qed.
Lemma vis_protocol : visible protocol_text.
Proof. intros w v cs (_ & b & c & _ & _ & -> & _). discriminate. Qed.
Lemma alternative_V : N_ alternative (two (fun a b => VTuple [a; b]) (after protocol_text (s "=")) alt_authority_text).
Proof.
  apply n_seal; [reflexivity|]. apply two_M; [apply vis_after, vis_protocol|apply vis_authority| |apply n_A, alt_authority_V].
  apply n_A, mark_after; [reflexivity|]. apply n_A, d_nodeV; [reflexivity|apply protocol_M].
Qed.
Lemma alt_param_V : N_ parameter_7838 (param "AltSvcParam").
Proof.
  eapply n_ext; [apply n_seal; [reflexivity|]; apply two_M; [| |apply n_A, mark_after; [reflexivity|]; apply n_A, n_class, token_textual|exact (word_denA nested)]; vis; apply vis_quoted|].
  intros w v cs. unfold param. split.
  - intros (w1 & w2 & v1 & v2 & c1 & c2 & -> & (x & -> & (T & -> & ->)) & W & -> & ->). exists x, w2, v2. split; [exact T|]. split; [now rewrite <- app_assoc|]. auto.
  - intros (x & y & u & T & -> & W & ->). exists (x ++ s "="), y, (named "AltSvcParam" x), u, [], cs. split; [now rewrite <- app_assoc|]. split; [exists x; split; [reflexivity|]; split; auto|auto].
Qed.
Lemma alt_value_M : is_M alt_value alt_value_text.
Proof.
  apply d_seal, n_M. eapply n_ext; [apply two_class; [| |apply n_A, alternative_V|apply multidict_V, semis_den; [apply param_visible|apply n_A, alt_param_V]]|].
  - vis.
  - intros w v cs (vs & _ & ->). discriminate.
  - intros w v cs. unfold alt_value_text. split.
    + intros (w1 & w2 & v1 & v2 & c1 & c2 & -> & (w3 & w4 & pv & av & c3 & c4 & -> & (p & -> & P) & Q & -> & ->) & (ps & Z & ->) & -> & ->).
      exists p, w4, w2, pv, av, ps, c3, c4, c2. rewrite <- !app_assoc. repeat (split; [reflexivity || assumption|]). reflexivity.
    + intros (p & x & rest & pv & av & ps & c1 & c2 & c3 & -> & P & Q & Z & -> & ->).
      exists (p ++ s "=" ++ x), rest, (VTuple [pv; av]), (VObj (s "MultiDict") [VList ps]), (c1 ++ c2), c3. rewrite <- !app_assoc. split; [reflexivity|].
      split; [|split; [exists ps; auto|auto]]. exists (p ++ s "="), x, pv, av, c1, c2. rewrite <- app_assoc. split; [reflexivity|]. split; [exists p; auto|auto].
Qed.
Lemma Alt_Svc_M : is_M Alt_Svc alt_svc_text.
Proof.
  assert (L : is_M (comma_list1 alt_value) (list_spec alt_value_text list1_shape)).
  { apply means_in_is. apply (@lists_mean_in nested alt_value alt_value_text); [reflexivity|apply means_in_is, alt_value_M|].
    intros w v cs (p & x & rest & pv & av & ps & c1 & c2 & c3 & _ & _ & _ & _ & -> & _). split; discriminate. }
  apply d_seal, n_M. eapply n_ext; [apply n_alt; [apply n_text, textual_seal; [reflexivity|apply exactly_textual]|apply d_nodeV; [reflexivity|exact L]]|].
  intros w v cs. unfold either, alt_svc_text, plain. tauto.
Qed.

(** ** Link *)
Lemma bad_gap : den (A (skip BWS)) (gap bad_space).
Proof.
  eapply den_ext; [apply d_eph; [reflexivity|]; apply d_skip, BWS_V|]. intros w ns cs. unfold rskip, gap. split.
  - intros [(n & v & (X & _) & _) ->]. auto.
  - intros (X & ->). split; [|reflexivity]. exists [VStr w], (VStr w). auto.
Qed.
Lemma equals_gap : den (A (skip (seq2 (literal (s "=")) BWS))) (gap (fun w cs => exists b, w = 61%N :: b /\ bad_space b cs)).
Proof.
  eapply den_ext; [apply d_eph; [reflexivity|]; apply d_skip, d_seq; [apply d_textA, (@lit_textual nested "="); reflexivity|apply n_A, BWS_V]|]. intros w ns cs. unfold rskip, gap. split.
  - intros [(n & w1 & w2 & n1 & n2 & c1 & c2 & -> & _ & -> & (-> & _ & ->) & (v & (B & _) & _)) ->]. split; [|reflexivity]. exists w2. auto.
  - intros ((b & -> & B) & ->). split; [|reflexivity]. exists ([VStr (s "=")] ++ [VStr b]), (s "="), b, [VStr (s "=")], [VStr b], [], cs. split; [reflexivity|]. split; [reflexivity|]. split; [reflexivity|].
    split; [split; auto|]. exists (VStr b). auto.
Qed.
Definition raw_param : reading := fun w v cs => exists p, link_param_text w p cs /\ v = as_value p.
Lemma link_param_V : N_ link_param raw_param.
Proof.
  eapply n_ext; [apply n_seal; [reflexivity|]; apply two_M; [| |apply n_A, (seq_after (n_A (n_class "CaseInsensitive" (token_textual nested))) bad_gap)|apply n_A, n_maybe, (seq_before equals_gap (n_A (marked_V nested)))]|].
  - vis.
  - apply vis_optional; [apply vis_gb, vis_marked|discriminate].
  - intros w v cs. unfold raw_param, link_param_text. split.
    + intros (w1 & w2 & v1 & v2 & c1 & c2 & -> & (n & a & c3 & c4 & -> & (T & -> & ->) & B & ->) & U & -> & ->).
      destruct U as [(g & x & c5 & c6 & -> & (b & -> & B2) & (y & X) & ->)|(-> & -> & ->)].
      * destruct X as [(T2 & -> & -> & ->)|(Q & ->)].
        -- exists (n, Some (s "token", x)). split; [|reflexivity]. exists a, (61%N :: b ++ x), c4, (c5 ++ []). cbn [fst snd]. split; [now rewrite <- app_assoc|]. split; [exact T|]. split; [exact B|]. split; [reflexivity|]. right. exists b, x, x, c5, []. auto 8.
        -- destruct (quoted_visible Q) as (t & ->). exists (n, Some (s "quoted-string", t)). split; [|reflexivity]. exists a, (61%N :: b ++ x), c4, (c5 ++ c6). cbn [fst snd]. split; [now rewrite <- app_assoc|]. split; [exact T|]. split; [exact B|]. split; [reflexivity|]. right. exists b, x, t, c5, c6. auto 8.
      * exists (n, None). split; [|reflexivity]. exists a, [], c4, []. cbn [fst snd]. split; [now rewrite <- app_assoc|]. auto 8.
    + intros (p & (a & rest & c1 & c2 & -> & T & B & -> & U) & ->). destruct p as [n o]. cbn [fst snd] in *.
      exists (n ++ a), rest, (named "CaseInsensitive" n), (match o with Some (f, t) => VTuple [VStr f; VStr t] | None => VNone end), c1, c2. split; [now rewrite <- app_assoc|]. split; [exists n, a, [], c1; split; [reflexivity|]; split; [split; auto|auto]|]. split; [|split; reflexivity].
      destruct U as [(-> & -> & ->)|(b & x & t & c3 & c4 & -> & B2 & -> & H)]; [right; auto|left]. exists (61%N :: b), x, c3, c4. split; [reflexivity|]. split; [exists b; auto|]. split; [|reflexivity].
      destruct H as [(T2 & -> & -> & ->)|(Q & ->)]; [exists (VStr x); left|exists (VStr t); right]; auto.
Qed.
Lemma vis_raw : visible raw_param.
Proof. intros w v cs (p & _ & ->). discriminate. Qed.
Lemma params_raw w vs cs : after_semicolons raw_param w vs cs <-> exists ps, link_params_text w ps cs /\ vs = map as_value ps.
Proof.
  split.
  - induction 1 as [|a b w v c ws vs cs Oa Ob (p & P & ->) _ (ps & Q & ->)]; [exists []; split; [constructor|reflexivity]|]. exists (p :: ps). split; [now constructor|reflexivity].
  - intros (ps & H & ->). induction H as [|a b w p c ws ps cs Oa Ob P _ IH]; [constructor|]. cbn [map]. constructor; [exact Oa|exact Ob|exists p; auto|exact IH].
Qed.
Definition link_exact : reading := fun w v cs => exists u rest ps m c1 c2,
  w = 60%N :: u ++ 62%N :: rest /\ reference_text u /\ link_params_text rest ps c1 /\ v = VObj (s "Parametrized") [VStr u; m] /\ cs = c1 ++ c2 /\
  nested PProcessParams [VList (map as_value ps)] = (m, c2).
Lemma link_value_M : is_M link_value link_exact.
Proof.
  assert (H : N_ (wrap (FPy PProcessParams) (many (seq2 (skip (seq2 (seq2 OWS (lit ";")) OWS)) link_param))) (fun w v cs => exists ps c1 c2, link_params_text w ps c1 /\ nested PProcessParams [VList (map as_value ps)] = (v, c2) /\ cs = c1 ++ c2)).
  { pose proof (semis_den vis_raw (n_A link_param_V)) as H.
    assert (H' : den (V (many (seq2 (skip (seq2 (seq2 OWS (lit ";")) OWS)) link_param))) (fun w ns cs => exists vs, after_semicolons raw_param w vs cs /\ ns = [VList vs])).
    { intros w ns cs. rewrite <- (H w ns cs). now rewrite V_many, A_many. }
    eapply n_ext; [apply applied_V, H'|]. intros w v cs. unfold applied. split.
    - intros (n & c & k & (vs & X & ->) & E & ->). apply params_raw in X. destruct X as (ps & X & ->). exists ps, c, k. auto.
    - intros (ps & c1 & c2 & X & E & ->). exists [VList (map as_value ps)], c1, c2. split; [|split; [exact E|reflexivity]]. exists (map as_value ps). split; [|reflexivity]. apply params_raw. eauto. }
  apply d_seal, n_M. eapply n_ext; [apply two_class; [| |apply n_A, (@mark_after nested _ ">"); [reflexivity|]; apply n_A, (@mark_before nested _ "<"); [reflexivity|]; apply n_A, n_text, reference_textual|apply n_A, H]|].
  - vis.
  - intros w v cs (ps & c1 & c2 & _ & E & _). cbn [Nested.nested] in E. destruct (process_params again [] None (map as_value ps)) as [[r k]|]; injection E as <- _; discriminate.
  - intros w v cs. unfold link_exact. split.
    + intros (w1 & w2 & v1 & v2 & c1 & c2 & -> & (x & -> & (u & -> & (R & -> & ->))) & (ps & c3 & c4 & P & E & ->) & -> & ->).
      exists u, w2, ps, v2, c3, c4. split; [now assoc|]. auto 8.
    + intros (u & rest & ps & m & c1 & c2 & -> & R & P & -> & -> & E). exists (s "<" ++ u ++ s ">"), rest, (VStr u), m, [], (c1 ++ c2). split; [now assoc|]. split; [|split; [exists ps, c1, c2; auto|auto]].
      exists (s "<" ++ u). split; [now rewrite <- app_assoc|]. exists u. split; [reflexivity|]. split; auto.
Qed.
Lemma Link_M : is_M Link (list_spec link_exact list_shape).
Proof.
  apply d_seal, means_in_is. apply (@lists_mean_in nested link_value link_exact); [reflexivity|apply means_in_is, link_value_M|].
  intros w v cs (u & rest & ps & m & c1 & c2 & _ & _ & _ & -> & _). split; discriminate.
Qed.

(** ** The parameters *)
Lemma last_form_snoc before n x f : last_form (before ++ [(n, x)]) f <->
  (exists t, x = Some (f, t) /\ ~ left_out before n) \/ (x = None \/ left_out before n) /\ last_form before f.
Proof.
  split.
  - intros (b & m & t & c & E & L & H). destruct c as [|y c _] using rev_ind.
    + left. apply app_inj_tail in E. destruct E as [<- E]. injection E as <- ->. eauto.
    + right. change (b ++ (m, Some (f, t)) :: c ++ [y]) with (b ++ ((m, Some (f, t)) :: c) ++ [y]) in E. rewrite app_assoc in E. apply app_inj_tail in E. destruct E as [-> <-]. split.
      * destruct x as [x|]; [right|now left]. exact (H c n x [] eq_refl).
      * exists b, m, t, c. split; [reflexivity|]. split; [exact L|]. intros c1 m' x' c2 ->. apply (H c1 m' x' (c2 ++ [(n, x)])). now rewrite <- app_assoc.
  - intros [(t & -> & L)|(K & b & m & t & c & -> & L & H)].
    + exists before, n, t, []. split; [reflexivity|]. split; [exact L|]. intros [|y c1] m x c2 E; discriminate E.
    + exists b, m, t, (c ++ [(n, x)]). split; [now rewrite <- app_assoc|]. split; [exact L|]. intros c1 m' x' c2 E. destruct c2 as [|y c2 _] using rev_ind.
      * apply app_inj_tail in E. destruct E as [<- E]. injection E as <- ->. destruct K as [K|K]; [discriminate K|exact K].
      * change (c1 ++ (m', Some x') :: c2 ++ [y]) with (c1 ++ ((m', Some x') :: c2) ++ [y]) in E. rewrite app_assoc in E. apply app_inj_tail in E. destruct E as [E _]. exact (H _ _ _ _ E).
Qed.
Lemma value_ok n t x v c : link_param_syntax (map lower_c n) = x ->
  match x with Some x' => parse_again again x' t 1158 [(s "name", named "CaseInsensitive" n); (s "value", VStr t)] | None => (VStr t, []) end = (v, c) -> param_value n t v c.
Proof.
  intros X E. destruct x as [x|].
  - left. destruct (syntax_reading X) as (m & S & I & T & P & R). exists m, S. split; [exact I|]. split; [exact T|]. unfold parse_again in E. destruct (again_reads D P R t) as [(u & k & k' & F & H & Q)|(F & H)]; rewrite F in E.
    + left. assert (u = v) as -> by exact (f_equal fst E). exists k'. split; [exact H|]. pose proof (f_equal snd E) as E2. cbn [snd] in E2. rewrite <- E2. now apply Permutation_map.
    + right. split; [exact H|]. split; [exact (eq_sym (f_equal fst E))|exact (eq_sym (f_equal snd E))].
  - right. split; [now apply syntax_none|]. split; [exact (eq_sym (f_equal fst E))|exact (eq_sym (f_equal snd E))].
Qed.
Lemma noted_if (b : bool) (P : Prop) k : (b = true <-> P) -> noted P k (if b then [(k, [])] else []).
Proof. intro H. destruct b; [left|right]; split; try reflexivity; [now apply H|]. intro X. apply H in X. discriminate X. Qed.
Lemma process_ok ps : forall before seen pa r cs,
  (forall n, once_only n -> (existsb (str_eqb (map lower_c n)) seen = true <-> exists p, In p before /\ same_name (fst p) n)) ->
  (forall f, pa = Some f <-> last_form before f) ->
  process_params again seen pa (map as_value ps) = Some (r, cs) -> link_parts before ps r cs.
Proof.
  induction ps as [|[n x] ps IH]; intros before seen pa r cs Hs Hp E.
  { cbn [map process_params] in E. assert (r = []) as -> by congruence. constructor.
    assert (O : existsb (str_eqb (s "rel")) seen = true <-> exists p, In p before /\ same_text "rel" (fst p)).
    { change (s "rel") with (map lower_c (s "rel")). rewrite (Hs (s "rel")) by (exists "rel"; split; [now left|reflexivity]).
      split; intros (p & I & H); exists p; (split; [exact I|]); [rewrite same_text_lower; unfold same_name in H; congruence|apply same_text_lower in H; unfold same_name; congruence]. }
    destruct (existsb (str_eqb (s "rel")) seen) eqn:B.
    - right. assert (cs = []) as -> by (injection E as E; symmetry; exact E). split; [|reflexivity]. intro N. apply N, O. reflexivity.
    - left. split; [|injection E as E; symmetry; exact E]. intro X. apply O in X. discriminate X. }
  assert (LO : existsb (str_eqb (map lower_c n)) names_once && existsb (str_eqb (map lower_c n)) seen = true <-> left_out before n).
  { rewrite andb_true_iff, once_iff. unfold left_out. split; intros [A0 B]; (split; [exact A0|]); apply (Hs n A0); exact B. }
  assert (Hs' : forall seen', (forall m, once_only m -> (existsb (str_eqb (map lower_c m)) seen' = true <-> existsb (str_eqb (map lower_c m)) seen = true \/ map lower_c n = map lower_c m)) ->
    forall m, once_only m -> (existsb (str_eqb (map lower_c m)) seen' = true <-> exists p, In p (before ++ [(n, x)]) /\ same_name (fst p) m)).
  { intros seen' Q m Om. rewrite (Q m Om), (Hs m Om). split.
    - intros [[p [Ip H]]|H]; [exists p; split; [apply in_app_iff; now left|exact H]|exists (n, x); split; [apply in_app_iff; right; now left|exact H]].
    - intros [p [Ip H]]. apply in_app_iff in Ip. destruct Ip as [Ip|[<-|[]]]; [left; eauto|right; exact H]. }
  change (map as_value ((n, x) :: ps)) with (VTuple [VObj (s "CaseInsensitive") [VStr n]; match x with Some (sym, t) => VTuple [VStr sym; VStr t] | None => VNone end] :: map as_value ps) in E.
  cbn [process_params] in E.
  destruct (existsb (str_eqb (map lower_c n)) names_once && existsb (str_eqb (map lower_c n)) seen) eqn:B.
  - assert (L : left_out before n) by now apply LO.
    destruct (process_params again seen pa (map as_value ps)) as [[r' cs']|] eqn:R; [|discriminate E]. injection E as <- <-.
    apply part_left_out; [exact L|]. apply (IH _ seen pa); [|intro f; rewrite last_form_snoc, Hp; split; [auto|intros [(t & _ & N)|(_ & H)]; [contradiction|exact H]]|exact R].
    apply Hs'. intros m Om. split; [now left|]. intros [H|H]; [exact H|]. destruct L as [_ Lx]. apply (Hs m Om). destruct Lx as [p [Ip E2]]. exists p. split; [exact Ip|]. unfold same_name in *. congruence.
  - assert (NL : ~ left_out before n) by (intro H; apply LO in H; congruence).
    set (seen' := if existsb (str_eqb (map lower_c n)) names_once then map lower_c n :: seen else seen) in E.
    assert (Q : forall m, once_only m -> (existsb (str_eqb (map lower_c m)) seen' = true <-> existsb (str_eqb (map lower_c m)) seen = true \/ map lower_c n = map lower_c m)).
    { intros m Om. unfold seen'. destruct (existsb (str_eqb (map lower_c n)) names_once) eqn:O.
      - cbn [existsb]. rewrite orb_true_iff, str_eqb_eq. split; intros [H|H]; auto.
      - split; [now left|]. intros [H|H]; [exact H|]. exfalso. apply once_iff in Om. rewrite <- H in Om. congruence. }
    set (pa' := match x with Some (sym, _) => Some sym | None => pa end).
    assert (Hp' : forall f, pa' = Some f <-> last_form (before ++ [(n, x)]) f).
    { intro f. rewrite last_form_snoc, <- Hp. unfold pa'. destruct x as [[sym t]|]; split.
      - intro H. injection H as ->. left. eauto.
      - intros [(t' & H & _)|([H|H] & _)]; [congruence|discriminate H|contradiction].
      - intro H. right. auto.
      - intros [(t' & H & _)|(_ & H)]; [discriminate H|exact H]. }
    assert (Z : exists p v c3 r' cs', (str_eqb (map lower_c n) (s "title") || str_eqb (map lower_c n) (s "hreflang") = true -> pa' = Some p) /\
      match x with Some (_, t) => param_value n t v c3 | None => v = VNone /\ c3 = [] end /\ process_params again seen' pa' (map as_value ps) = Some (r', cs') /\
      r = VTuple [VObj (s "CaseInsensitive") [VStr n]; v] :: r' /\
      cs = (if str_eqb (map lower_c n) (s "title") && str_eqb p (s "token") then [(1307%N, [])] else []) ++
           (if str_eqb (map lower_c n) (s "hreflang") && str_eqb p (s "quoted-string") then [(1308%N, [])] else []) ++ c3 ++ (if str_eqb (map lower_c n) (s "rev") then [(1226%N, [])] else []) ++ cs').
    { unfold pa'. clear pa' Hp'. destruct x as [[sym t]|]; cbv beta iota in E.
      - destruct (if str_eqb (map lower_c n) (s "title") || str_eqb (map lower_c n) (s "hreflang") then Some sym else Some []) as [p|] eqn:P0; [|discriminate E].
        destruct (match link_param_syntax (map lower_c n) with Some x' => parse_again again x' t 1158 [(s "name", VObj (s "CaseInsensitive") [VStr n]); (s "value", VStr t)] | None => (VStr t, []) end) as [v c3] eqn:VE.
        assert (PV : param_value n t v c3) by (eapply value_ok; [reflexivity|exact VE]).
        assert (E' : match process_params again seen' (Some sym) (map as_value ps) with
          | Some (r0, cs0) => Some (VTuple [VObj (s "CaseInsensitive") [VStr n]; v] :: r0,
              (if str_eqb (map lower_c n) (s "title") && str_eqb p (s "token") then [(1307%N, [])] else []) ++
              (if str_eqb (map lower_c n) (s "hreflang") && str_eqb p (s "quoted-string") then [(1308%N, [])] else []) ++ c3 ++ (if str_eqb (map lower_c n) (s "rev") then [(1226%N, [])] else []) ++ cs0)
          | None => None end = Some (r, cs)) by (destruct (link_param_syntax (map lower_c n)); rewrite VE in E || (injection VE as <- <-); exact E).
        destruct (process_params again seen' (Some sym) (map as_value ps)) as [[r' cs']|] eqn:R; [|discriminate E'].
        exists p, v, c3, r', cs'. split; [intro H; rewrite H in P0; exact P0|]. split; [exact PV|]. split; [reflexivity|]. split; congruence.
      - destruct (if str_eqb (map lower_c n) (s "title") || str_eqb (map lower_c n) (s "hreflang") then pa else Some []) as [p|] eqn:P0; [|discriminate E].
        destruct (link_param_syntax (map lower_c n)); [discriminate E|].
        destruct (process_params again seen' pa (map as_value ps)) as [[r' cs']|] eqn:R; [|discriminate E].
        exists p, VNone, [], r', cs'. split; [intro H; rewrite H in P0; exact P0|]. split; [auto|]. split; [reflexivity|]. split; congruence. }
    destruct Z as (p & v & c3 & r' & cs' & P0 & PV & R & -> & ->). apply part_kept; [exact NL|exact PV| | | |].
    + apply noted_if. rewrite andb_true_iff, named_iff, str_eqb_eq, <- Hp' by reflexivity. split; intros (T & H); (split; [exact T|]); apply (@named_iff n "title") in T; try reflexivity; rewrite T in P0; specialize (P0 eq_refl); congruence.
    + apply noted_if. rewrite andb_true_iff, named_iff, str_eqb_eq, <- Hp' by reflexivity. split; intros (T & H); (split; [exact T|]); apply (@named_iff n "hreflang") in T; try reflexivity; rewrite T, orb_true_r in P0; specialize (P0 eq_refl); congruence.
    + apply noted_if. now apply named_iff.
    + apply (IH _ seen' pa'); [now apply Hs'|exact Hp'|exact R].
Qed.
Lemma loose_link : loosens link_exact link_value_text.
Proof.
  split.
  - intros w v cs (u & rest & ps & m & c1 & c2 & -> & R & P & -> & -> & E). exists u, rest, ps, m, c1, c2. split; [reflexivity|]. split; [exact R|]. split; [exact P|]. split; [reflexivity|]. split; [reflexivity|].
    pose proof (@C65_link again ps) as K. fold (raises ps) in K. cbn [Nested.nested] in E, K. destruct (process_params again [] None (map as_value ps)) as [[r k]|] eqn:Q.
    + right. split; [intro H; apply K in H; discriminate H|]. exists r. assert (k = c2) as -> by exact (f_equal snd E). split; [|exact (eq_sym (f_equal fst E))]. apply (@process_ok ps [] [] None); [| |exact Q].
      * intros n _. split; [discriminate|intros (p & [] & _)].
      * intro f. split; [discriminate|]. intros (b & n & t & c & H & _). destruct b; discriminate H.
    + left. split; [now apply K|]. split; [exact (eq_sym (f_equal fst E))|exact (eq_sym (f_equal snd E))].
  - intros w (v & cs & u & rest & ps & m & c1 & c2 & -> & R & P & _).
    destruct (nested PProcessParams [VList (map as_value ps)]) as [m' k] eqn:E. exists (VObj (s "Parametrized") [VStr u; m']), (c1 ++ k), u, rest, ps, m', c1, k. auto 8.
Qed.
End Again.
