(** What more symbols with parts mean: transfer codings, protocols, challenges
    and credentials. *)
From Coq Require Import ZifyBool ZifyNat ZifyN Permutation String.
From Verif Require Import Base Earley EarleySpec Parse Grammar GrammarSem GrammarLang GrammarWF GrammarVals GrammarExcl GrammarCalc
  Syntax Actions Reading HttpText P_Grammar HttpValues SyntaxVals SyntaxDen SyntaxParts SyntaxKit SyntaxMore.
Open Scope nat_scope.
Open Scope list_scope.
Unset Strict Implicit.
Local Open Scope string_scope.
Local Open Scope list_scope.

Ltac assoc := cbn [app]; repeat (rewrite <- app_assoc; cbn [app]).

Section Fields.
Variable nested : pyf -> list val -> val * list vcomplaint.
Notation pf := (pyfun nested).
Notation textual := (textual rec_rules pf).
Notation M := (M rec_rules pf).
Notation V := (V rec_rules pf).
Notation A := (A rec_rules pf).
Notation is_M := (is_M nested).
Notation N_ := (SyntaxKit.N nested).

(** ** White space *)
Lemma BWS_V : N_ BWS (fun w v cs => bad_space w cs /\ v = VStr w).
Proof.
  apply n_seal; [reflexivity|]. apply n_M. apply (n_py (F := FPy PBadWhitespace) (S := plain ows VStr)); [vis|apply n_text, OWS_textual|]. intros w v cs. unfold bad_space, plain. split.
  - intros ((O & C) & ->). exists (VStr w), [], cs. split; [auto|]. split; [|reflexivity]. cbn [call_func pyfun]. destruct C as [[-> ->]|[E ->]]; [reflexivity|]. destruct w; [now destruct E|reflexivity].
  - intros (u & c & k & (O & -> & ->) & E & ->). cbn [call_func pyfun] in E. injection E as <- <-. split; [|reflexivity]. split; [exact O|]. destruct w; [left|right]; split; auto; discriminate.
Qed.
Lemma g_equals : den (A (skip (seq2 (seq2 BWS (lit "=")) BWS))) (gap loose_equals).
Proof.
  eapply den_ext; [apply d_eph; [reflexivity|]; apply d_skip, d_seq; [apply d_eph; [reflexivity|]; apply d_seq; [apply n_A, BWS_V|apply d_textA, (@lit_textual nested "="); reflexivity]|apply n_A, BWS_V]|].
  intros w ns cs. unfold gap, loose_equals. split.
  - intros [[n (w1 & w2 & n1 & n2 & c1 & c2 & -> & _ & -> & (w3 & w4 & n3 & n4 & c3 & c4 & -> & _ & -> & (v & (B1 & _) & _) & (-> & _ & ->)) & (v' & (B2 & _) & _))] ->].
    split; [|reflexivity]. exists w3, w2, c3, c2. rewrite app_nil_r. split; [now assoc|auto].
  - intros ((a & b & c1 & c2 & -> & B1 & B2 & ->) & ->). split; [|reflexivity]. exists ([VStr a; VStr (s "=")] ++ [VStr b]). exists (a ++ s "="), b, [VStr a; VStr (s "=")], [VStr b], c1, c2.
    split; [now assoc|]. split; [reflexivity|]. split; [reflexivity|]. split; [|exists (VStr b); auto]. exists a, (s "="), [VStr a], [VStr (s "=")], c1, []. rewrite app_nil_r. split; [reflexivity|]. split; [reflexivity|]. split; [reflexivity|].
    split; [exists (VStr a); auto|]. split; auto.
Qed.

(** ** Transfer codings *)
Lemma param_name (no_q : bool) : textual (if no_q then token__excluding ["q"] else token) (fun w => token_text w /\ (no_q = true -> ~ same_text "q" w)).
Proof.
  destruct no_q.
  - eapply textual_ext; [apply (@excluding_tokens nested ["q"]); reflexivity|]. intro w. split.
    + intros [T N]. split; [exact T|]. intros _ Q. apply N. exists "q". split; [now left|exact Q].
    + intros [T N]. split; [exact T|]. intros (x & [<-|[]] & Q). now apply N.
  - eapply textual_ext; [apply token_textual|]. intro w. split; [intro T; split; [exact T|discriminate]|now intros [T _]].
Qed.
Lemma coding_param_V q : N_ (transfer_parameter q) (coding_param q).
Proof.
  eapply n_ext; [apply n_seal; [now destruct q|]; apply two_M; [| |apply n_A, (seq_after (n_A (n_text (param_name q))) g_equals)|exact (word_denA nested)]; vis; apply vis_quoted|].
  intros w v cs. unfold coding_param. split.
  - intros (w1 & w2 & v1 & v2 & c1 & c2 & -> & (name & e & c3 & c4 & -> & ((T & Q) & -> & ->) & E & ->) & W & -> & ->). exists name, e, w2, v2, c4, c2. repeat (split; [assumption|]). split; [now assoc|auto].
  - intros (name & e & x & u & c1 & c2 & T & Q & E & W & -> & -> & ->). exists (name ++ e), x, (VStr name), u, c1, c2. split; [now assoc|]. split; [|auto]. exists name, e, [], c1. split; [reflexivity|]. split; [split; auto|auto].
Qed.
Lemma vis_coding_param q : visible (coding_param q).
Proof. intros w v cs (n & e & x & u & c1 & c2 & _ & _ & _ & _ & _ & -> & _). discriminate. Qed.
Lemma extension_V (te : bool) : N_ (transfer_extension (built_in_codings ++ (if te then ["trailers"] else [])) te) (fun w v cs =>
  exists name rest ps, token_text name /\ w = name ++ rest /\ v = with_params (named "TransferCoding" name) ps /\
    ~ own_coding name /\ (te = true -> ~ same_text "trailers" name) /\ after_semicolons (coding_param te) rest ps cs).
Proof.
  apply n_seal; [now destruct te|]. apply n_M.
  eapply n_ext; [apply two_class; [| |apply n_A, n_class, excluding_tokens; now destruct te|apply multidict_V, semis_den; [apply vis_coding_param|apply n_A, coding_param_V]]|].
  - vis.
  - intros w v cs (vs & _ & ->). discriminate.
  - intros w v cs. assert (X : forall name, (exists x, In x (built_in_codings ++ (if te then ["trailers"] else [])) /\ same_text x name) <-> own_coding name \/ te = true /\ same_text "trailers" name).
    { intro name. unfold own_coding, built_in_codings. split.
      - intros (x & I & Q). apply in_app_or in I. destruct I as [I|I]; [left; eauto|right]. destruct te; [destruct I as [<-|[]]; auto|destruct I].
      - intros [(x & I & Q)|(-> & Q)]; [exists x|exists "trailers"]; (split; [apply in_or_app|exact Q]); [now left|right; now left]. }
    split.
    + intros (w1 & w2 & v1 & v2 & c1 & c2 & -> & ((T & N) & -> & ->) & (vs & Z & ->) & -> & ->). exists w1, w2, vs. rewrite X in N. split; [exact T|]. split; [reflexivity|]. split; [reflexivity|]. split; [tauto|]. split; [tauto|exact Z].
    + intros (name & rest & ps & T & -> & -> & N1 & N2 & Z). exists name, rest, (named "TransferCoding" name), (VObj (s "MultiDict") [VList ps]), [], cs. split; [reflexivity|]. split; [split; [|auto]; split; [exact T|]; rewrite X; tauto|]. split; [eauto|auto].
Qed.
Lemma own_V x : N_ (wrap (FPy PEmptyParams) (wrap (class "TransferCoding") (literal (s x)))) (plain (same_text x) (fun w => with_params (named "TransferCoding" w) [])).
Proof.
  apply (n_py (F := FPy PEmptyParams) (S := plain (same_text x) (named "TransferCoding"))); [vis|apply n_class, same_textual|]. intros w v cs. unfold plain. split.
  - intros (S & -> & ->). exists (named "TransferCoding" w), [], []. auto.
  - intros (u & c & k & (S & -> & ->) & E & ->). injection E as <- <-. auto.
Qed.
Lemma transfer_coding_V te : N_ (transfer_coding te te) (transfer_coding_text te).
Proof.
  apply n_seal; [reflexivity|]. apply n_M. unfold built_in_codings at 1. cbn [fold_left].
  eapply n_ext; [apply n_alt; [apply n_alt; [apply n_alt; [apply n_alt; [apply extension_V|apply own_V]|apply own_V]|apply own_V]|apply own_V]|].
  assert (Y : forall x name, In x ["chunked"; "compress"; "deflate"; "gzip"] -> same_text x name -> token_text name) by (intros x name [<-|[<-|[<-|[<-|[]]]]]; apply same_token; reflexivity).
  intros w v cs. unfold either, plain, transfer_coding_text. split.
  - assert (O : forall x, In x ["chunked"; "compress"; "deflate"; "gzip"] -> same_text x w /\ v = with_params (named "TransferCoding" w) [] /\ cs = [] -> transfer_coding_text te w v cs).
    { intros x I (S & -> & ->). exists w, [], []. rewrite app_nil_r. split; [now apply (Y x)|]. split; [reflexivity|]. split; [reflexivity|]. left. split; [exists x; auto|auto]. }
    intros [[[[(name & rest & ps & T & -> & -> & N1 & N2 & Z)|H]|H]|H]|H]; [exists name, rest, ps; auto 8|apply (O "chunked")|apply (O "compress")|apply (O "deflate")|apply (O "gzip")]; cbn [In]; auto.
  - intros (name & rest & ps & T & -> & -> & [((x & I & S) & -> & -> & ->)|(N1 & N2 & Z)]); [|left; left; left; left; exists name, rest, ps; auto 8].
    rewrite app_nil_r. destruct I as [<-|[<-|[<-|[<-|[]]]]]; tauto.
Qed.
Lemma vis_transfer te : visible (transfer_coding_text te).
Proof. intros w v cs (n & r & ps & _ & _ & -> & _). discriminate. Qed.
Lemma te_M : is_M t_codings te_text.
Proof.
  apply d_seal, n_M. eapply n_ext; [apply n_alt; [apply n_class, same_textual|apply weighted_V; [apply (@vis_transfer true)|apply n_A, transfer_coding_V|apply quality_V]]|].
  intros w v cs. unfold either, plain, te_text. tauto.
Qed.

(** ** Names and versions *)
Lemma versioned_V c x v : textual x token_text -> textual v token_text -> N_ (wrap (class "Versioned") (seq2 (wrap (class c) x) (maybe_ (seq2 (skip (lit "/")) v)))) (versioned c).
Proof.
  intros T1 T2. eapply n_ext; [apply two_class; [| |apply n_A, n_class, T1|apply n_A, n_maybe, mark_before; [reflexivity|]; apply n_A, n_text, T2]; vis|].
  intros w u cs. unfold versioned. split.
  - intros (w1 & w2 & v1 & v2 & c1 & c2 & -> & (T & -> & ->) & [(y & -> & (Y & -> & ->))|(-> & -> & ->)] & -> & ->); (split; [reflexivity|]); exists w1; (split; [exact T|]); [right; exists y; auto|left; rewrite app_nil_r; auto].
  - intros (-> & name & T & [(-> & ->)|(y & Y & -> & ->)]).
    + exists name, [], (named c name), VNone, [], []. rewrite app_nil_r. split; [reflexivity|]. split; [split; auto|]. split; [right; auto|auto].
    + exists name, (47%N :: y), (named c name), (VStr y), [], []. split; [reflexivity|]. split; [split; auto|]. split; [left; exists y; split; [reflexivity|split; auto]|auto].
Qed.
Lemma protocol_name_M : is_M protocol (versioned "UpgradeToken").
Proof. apply d_seal, n_M, versioned_V; (apply textual_seal; [reflexivity|apply token_textual]). Qed.
Lemma product_V : N_ product (versioned "ProductName").
Proof. apply n_seal; [reflexivity|]. apply n_M, versioned_V; [apply token_textual|apply textual_seal; [reflexivity|apply token_textual]]. Qed.

(** ** Challenges *)
Lemma marked_exact w u cs : marked w u cs <-> (token_text w /\ u = VTuple [VStr (s "token"); VStr w] /\ cs = []) \/ exists y, quoted_text w y cs /\ u = VTuple [VStr (s "quoted-string"); y].
Proof. unfold marked. split; [intros (y & [(T & -> & -> & ->)|(Q & ->)]); [left|right]; eauto|intros [(T & -> & ->)|(y & Q & ->)]; [exists (VStr w)|exists y]; auto]. Qed.
Lemma auth_param_V : N_ auth_param auth_param_text.
Proof.
  apply n_seal; [reflexivity|]. apply n_M.
  eapply n_ext; [apply applied_V, pair_V; [| |apply n_A, (seq_after (n_A (n_class "CaseInsensitive" (token_textual nested))) g_equals)|apply n_A, marked_V]; [vis|apply vis_marked]|].
  assert (R : forall name, str_eqb (map lower_c name) (s "realm") = true <-> same_text "realm" name).
  { intro name. rewrite same_text_lower. change (map lower_c (s "realm")) with (s "realm"). rewrite str_eqb_eq. split; congruence. }
  intros w v cs. unfold applied, auth_param_text. split.
  - intros (n & c & k & (v1 & v2 & -> & (w1 & w2 & u1 & u2 & c1 & c2 & -> & (name & e & c3 & c4 & -> & (T & -> & ->) & E & ->) & Y & EQ & ->)) & Q & ->). injection EQ as -> ->.
    cbn [call_func] in Q. apply marked_exact in Y. destruct Y as [(Tx & -> & ->)|(y & Qx & ->)]; unfold named in Q; cbn [pyfun] in Q; injection Q as <- <-.
    + exists name, e, w2, (VStr w2), c4, []. eexists. split; [exact T|]. split; [exact E|]. split; [now assoc|]. split; [reflexivity|]. split; [cbn [app]; rewrite app_nil_r; reflexivity|]. left. split; [exact Tx|]. split; [reflexivity|]. split; [reflexivity|].
      change (str_eqb (s "token") (s "quoted-string")) with false. cbn [negb]. rewrite andb_true_r. destruct (str_eqb (map lower_c name) (s "realm")) eqn:K; [left; rewrite R in K; auto|right]. split; [|reflexivity]. rewrite <- R. congruence.
    + exists name, e, w2, y, c4, c2, []. split; [exact T|]. split; [exact E|]. split; [now assoc|]. split; [reflexivity|]. change (str_eqb (s "quoted-string") (s "quoted-string")) with true. cbn [negb]. rewrite andb_false_r. split; [now assoc|]. right. auto.
  - intros (name & e & x & u & c1 & c2 & c3 & T & E & -> & -> & -> & [(Tx & -> & -> & C)|(Qx & ->)]).
    + exists [named "CaseInsensitive" name; VTuple [VStr (s "token"); VStr x]], c1, c3. split; [|split; [|reflexivity]].
      * do 2 eexists. split; [reflexivity|]. exists (name ++ e), x, (named "CaseInsensitive" name), (VTuple [VStr (s "token"); VStr x]), c1, []. split; [now assoc|]. split; [exists name, e, [], c1; split; [reflexivity|]; split; [split; auto|auto]|].
        split; [apply marked_exact; left; auto|]. rewrite app_nil_r. auto.
      * cbn [call_func]. unfold named. cbn [pyfun]. change (str_eqb (s "token") (s "quoted-string")) with false. cbn [negb]. rewrite andb_true_r. destruct (str_eqb (map lower_c name) (s "realm")) eqn:K; destruct C as [[C ->]|[C ->]]; try reflexivity; rewrite <- R in C; congruence.
    + exists [named "CaseInsensitive" name; VTuple [VStr (s "quoted-string"); u]], (c1 ++ c2), []. split; [|split; [|now assoc]].
      * do 2 eexists. split; [reflexivity|]. exists (name ++ e), x, (named "CaseInsensitive" name), (VTuple [VStr (s "quoted-string"); u]), c1, c2. split; [now assoc|]. split; [exists name, e, [], c1; split; [reflexivity|]; split; [split; auto|auto]|].
        split; [apply marked_exact; right; eauto|]. auto.
      * cbn [call_func]. unfold named. cbn [pyfun]. change (str_eqb (s "quoted-string") (s "quoted-string")) with true. cbn [negb]. now rewrite andb_false_r.
Qed.
End Fields.

Lemma auth_params_mean : is_proper (comma_list auth_param) /\ means_as (comma_list auth_param) (list_spec auth_param_text list_shape).
Proof.
  refine (proj1 (@lists_mean auth_param auth_param_text eq_refl _ _)).
  - apply means_is. intro nested. apply n_M, auth_param_V.
  - intros w v cs (n & e & x & u & c1 & c2 & c3 & _ & _ & _ & -> & _). split; discriminate.
Qed.
Lemma token68_bits c : N.testbit (bits_of (alt (alt (alt (alt (alt (alt (alt ALPHA DIGIT) (lit "-")) (lit ".")) (lit "_")) (lit "~")) (lit "+")) (lit "/"))) c = is_token68 c.
Proof. revert c. unfold is_token68. octet_tac. Qed.

Section Auth.
Variable nested : pyf -> list val -> val * list vcomplaint.
Notation pf := (pyfun nested).
Notation textual := (textual rec_rules pf).
Notation A := (A rec_rules pf).
Notation is_M := (is_M nested).
Notation N_ := (SyntaxKit.N nested).

Lemma token68_textual : textual token68 token68_text.
Proof.
  apply textual_seal; [reflexivity|]. eapply textual_ext; [apply textual_add; [eapply (@textual_string1_class nested); [reflexivity|apply token68_bits]|eapply (@textual_string_class nested (lit "=") None (bits_of (lit "=")) (N.eqb 61)); [reflexivity|octet_tac]]|].
  intro w. unfold token68_text. split; intros (x & y & -> & X & Y); exists x, y; auto.
Qed.
Lemma auth_V n : N_ (auto_ n (wrap (class "Parametrized") (seq2 auth_scheme (maybe (seq2 (skip (string1 SP)) (alt token68 (wrap (class "MultiDict") (comma_list auth_param)))) (VObj (s "MultiDict") [VList []]))))) auth_text.
Proof.
  apply n_seal; [reflexivity|]. apply n_M.
  assert (L : N_ (wrap (class "MultiDict") (comma_list auth_param)) (fun w v cs => exists ps, list_spec auth_param_text list_shape w (VList ps) cs /\ v = VObj (s "MultiDict") [VList ps])).
  { apply (n_py (F := class "MultiDict") (S := list_spec auth_param_text list_shape)).
    - intros w v cs (ps & _ & _ & _ & -> & _). discriminate.
    - apply d_nodeV; [reflexivity|]. apply (proj2 (means_is _ _) (proj2 auth_params_mean)).
    - intros w v cs. split.
      + intros (ps & H & ->). exists (VList ps), cs, []. rewrite app_nil_r. auto.
      + intros (u & c & k & H & E & ->). injection E as <- <-. rewrite app_nil_r. pose proof H as (ps & _ & _ & _ & -> & _). eauto. }
  assert (G : den (A (skip (string1 SP))) (gap (fun w cs => all1 (N.eqb 32) w /\ cs = []))).
  { apply g_skip. apply (@textual_string1_class nested SP (Some (s "SP")) (bits_of SP)); [reflexivity|octet_tac]. }
  eapply n_ext; [apply two_class; [| |apply n_A, n_seal; [reflexivity|]; apply n_M, n_class, token_textual|apply n_A, n_maybe; eapply seq_before; [exact G|]; apply n_A, n_alt; [apply n_text, token68_textual|exact L]]|].
  - vis.
  - vis. intros w v cs (ps & _ & ->). discriminate.
  - intros w v cs. unfold auth_text. split.
    + intros (w1 & w2 & v1 & v2 & c1 & c2 & -> & (T & -> & ->) & [(sp & x & c3 & c4 & -> & (S & ->) & X & ->)|(-> & -> & ->)] & -> & ->); [exists w1, (sp ++ x), v2|exists w1, [], (VObj (s "MultiDict") [VList []])]; (split; [exact T|]); (split; [reflexivity|]); (split; [reflexivity|]); [right|left; auto].
      exists sp, x. split; [exact S|]. split; [reflexivity|]. destruct X as [(X & -> & ->)|(ps & X & ->)]; [left; auto|right; exists ps; auto].
    + intros (scheme & rest & u & T & -> & -> & [(-> & -> & ->)|(sp & x & S & -> & X)]).
      * exists scheme, [], (named "AuthScheme" scheme), (VObj (s "MultiDict") [VList []]), [], []. split; [reflexivity|]. split; [split; auto|]. split; [right; auto|auto].
      * exists scheme, (sp ++ x), (named "AuthScheme" scheme), u, [], cs. split; [reflexivity|]. split; [split; auto|]. split; [|auto]. left. exists sp, x, [], cs. split; [reflexivity|]. split; [auto|]. split; [|reflexivity].
        destruct X as [(X & -> & ->)|(ps & X & ->)]; [left; split; auto|right; exists ps; auto].
Qed.
End Auth.
