(** Warning, Pragma, conditions, relation types, nodes and others. *)
From Coq Require Import ZifyBool ZifyNat ZifyN Permutation String.
From Verif Require Import Base Earley EarleySpec Parse Grammar GrammarSem GrammarLang GrammarWF GrammarVals GrammarExcl GrammarCalc
  Syntax Actions Reading HttpText HttpDate HttpValues SyntaxVals SyntaxTags SyntaxDates P_Grammar SyntaxDen SyntaxParts SyntaxKit SyntaxMore SyntaxFields SyntaxAgents UriText SyntaxUri MoreValues SyntaxLang SyntaxExt.
Open Scope nat_scope.
Open Scope list_scope.
Unset Strict Implicit.
Local Open Scope string_scope.
Local Open Scope list_scope.

(** As a date is read: see C58. *)
Definition a_date : reading := fun w v cs => exists nested, M rec_rules (pyfun nested) HTTP_date w v cs.

Lemma nq_bits c : N.testbit (bits_of NQCHAR) c = is_nq c.
Proof. revert c. unfold is_nq. octet_tac. Qed.
Lemma rel_bits c : N.testbit (bits_of (alt (alt (alt LOALPHA DIGIT) (lit ".")) (lit "-"))) c = is_lower c || is_digit c || HttpText.among (s ".-") c.
Proof. revert c. unfold is_lower. octet_tac. Qed.
Lemma lower_bits c : N.testbit (bits_of LOALPHA) c = is_lower c.
Proof. revert c. unfold is_lower. octet_tac. Qed.
Lemma obf_bits c : N.testbit (bits_of (alt (alt (alt (alt ALPHA DIGIT) (lit ".")) (lit "_")) (lit "-"))) c = is_obf c.
Proof. revert c. unfold is_obf, is_alnum. octet_tac. Qed.

Section Rest.
Variable nested : pyf -> list val -> val * list vcomplaint.
Notation pf := (pyfun nested).
Notation textual := (textual rec_rules pf).
Notation M := (M rec_rules pf).
Notation V := (V rec_rules pf).
Notation A := (A rec_rules pf).
Notation is_M := (is_M nested).
Notation N_ := (SyntaxKit.N nested).

Lemma date_V : N_ HTTP_date a_date.
Proof.
  apply d_nodeV; [reflexivity|]. intros w v cs. unfold a_date. split.
  - intro H. exists cs. eauto.
  - intros (c & (n' & H) & P). apply HTTP_date_M in H. apply HTTP_date_M. destruct H as (p & O & E & Q & R). exists p. repeat (split; [assumption|]). eapply Permutation_trans; eauto.
Qed.
Lemma vis_date : visible a_date.
Proof.
  intros w v cs (n' & H). apply HTTP_date_spec in H. destruct H as (f & b & _ & _ & H1 & H2 & _). intro E. subst v.
  assert (D : ~ (real_date f /\ real_time f)) by (intro D; specialize (H1 D); discriminate H1). destruct (H2 D) as [x X]. discriminate X.
Qed.
Lemma tag_V : N_ entity_tag tag_reading.
Proof.
  apply d_nodeV; [reflexivity|]. intros w v cs. rewrite entity_tag_M. unfold tag_reading. split.
  - intros (t & O & E & Q & P). exists (tag_notes t). split; [exists t; auto|exact P].
  - intros (c & (t & O & E & Q & ->) & P). exists t. auto.
Qed.
Lemma vis_etag : visible tag_reading.
Proof. intros w v cs (t & _ & _ & -> & _). discriminate. Qed.
Lemma code_V : N_ warn_code (plain (fun w => all is_digit w /\ List.length w = 3) (named "WarnCode")).
Proof.
  apply n_seal; [reflexivity|]. apply n_M, n_class. eapply textual_ext; [apply digits_; lia|]. intro w. unfold subtag_of. split; intros [F L]; (split; [exact F|lia]).
Qed.
Lemma dquote_gap : den (A (skip DQUOTE)) (gap (fun w cs => w = [34%N] /\ cs = [])).
Proof. apply g_skip, dquote_textual. Qed.
Definition date_in_quotes : reading := fun w v cs => exists d, w = 34%N :: d ++ [34%N] /\ a_date d v cs.
Lemma warn_date_V : N_ warn_date date_in_quotes.
Proof.
  apply n_seal; [reflexivity|]. apply n_M. eapply n_ext; [eapply seq_after; [apply n_A; eapply seq_before; [apply dquote_gap|apply n_A, date_V]|apply dquote_gap]|].
  intros w v cs. unfold date_in_quotes. split.
  - intros (u & g & c1 & c2 & -> & (g1 & d & c3 & c4 & -> & (-> & ->) & D & ->) & (-> & ->) & ->). exists d. rewrite app_nil_r. auto.
  - intros (d & -> & D). exists (34%N :: d), [34%N], cs, []. rewrite app_nil_r. split; [reflexivity|]. split; [|auto]. exists [34%N], d, [], cs. auto.
Qed.
Lemma Warning_item : is_M warning_value (warning_text a_date).
Proof.
  assert (D : N_ (seq2 (skip SP) warn_date) (gap_before (fun w cs => w = [32%N] /\ cs = []) date_in_quotes)) by (eapply seq_before; [apply sp_gap|apply n_A, warn_date_V]).
  assert (Q : N_ warn_text quoted_text) by (apply n_seal; [reflexivity|]; apply n_M, quoted_V).
  apply d_seal, n_M. eapply n_ext; [apply k_class, kv_then; [|apply k_then; [|apply k_gap; [apply k_then; [|apply k_gap; [apply k_first; [|apply code_V]|apply sp_gap]|apply n_text, agent_textual]|apply sp_gap]|exact Q]|apply n_maybe, D]|].
  - vis. intros w v cs (d & _ & X). apply (vis_date X).
  - apply vis_quoted.
  - vis.
  - vis.
  - intros w v cs. unfold warning_text. split.
    + intros (ns & (w1 & rest & n1 & u & c1 & c2 & -> & H & U & -> & ->) & ->). destruct H as (w2 & x & n2 & t & c3 & c4 & -> & H & T & -> & ->). destruct H as (w3 & g & c5 & c6 & -> & H & (-> & ->) & ->). destruct H as (w4 & a & n3 & av & c7 & c8 & -> & H & (Ag & -> & ->) & -> & ->). destruct H as (code & g & c9 & c10 & -> & (cv & ((C & L) & -> & ->) & ->) & (-> & ->) & ->).
      exists code, a, x, rest, t, u, c4, c2. rewrite <- !app_assoc. split; [reflexivity|]. repeat (split; [assumption || reflexivity|]).
      destruct U as [(g & z & k1 & k2 & -> & (-> & ->) & (d & -> & Z) & ->)|(-> & -> & ->)]; [right; exists d; auto|left; auto].
    + intros (code & a & x & rest & t & u & c1 & c2 & -> & C & L & Ag & T & -> & -> & R). exists [named "WarnCode" code; VStr a; t; u]. split; [|reflexivity].
      exists (code ++ 32%N :: a ++ 32%N :: x), rest, [named "WarnCode" code; VStr a; t], u, c1, c2. split; [repeat (rewrite <- app_assoc; cbn [app]); reflexivity|]. split; [|split; [|auto]].
      * exists (code ++ 32%N :: a ++ [32%N]), x, [named "WarnCode" code; VStr a], t, [], c1. split; [repeat (rewrite <- app_assoc; cbn [app]); reflexivity|]. split; [|auto].
        exists (code ++ 32%N :: a), [32%N], [], []. split; [repeat (rewrite <- app_assoc; cbn [app]); reflexivity|]. split; [|auto].
        exists (code ++ [32%N]), a, [named "WarnCode" code], (VStr a), [], []. split; [repeat (rewrite <- app_assoc; cbn [app]); reflexivity|]. split; [|split; [split; auto|auto]].
        exists code, [32%N], [], []. split; [reflexivity|]. split; [|auto]. exists (named "WarnCode" code). split; [split; auto|reflexivity].
      * destruct R as [(-> & -> & ->)|(d & -> & Z)]; [right; auto|left]. exists [32%N], (34%N :: d ++ [34%N]), [], c2. split; [reflexivity|]. split; [auto|]. split; [exists d; auto|reflexivity].
Qed.

Lemma Pragma_item : is_M pragma_directive pragma_text.
Proof.
  apply d_seal, n_M.
  eapply n_ext; [apply n_alt; [apply n_class, same_textual|apply n_seal; [reflexivity|]; apply n_M, two_class; [| |apply n_A, n_text, excluding_tokens; reflexivity|apply n_A, n_maybe, (@mark_before nested _ "="); [reflexivity|apply word_denA]]]|].
  - vis.
  - apply vis_optional; [apply vis_before, vis_word|discriminate].
  - intros w v cs. unfold either, pragma_text. split.
    + intros [(S1 & -> & ->)|(w1 & w2 & v1 & v2 & c1 & c2 & -> & ((T & N1) & -> & ->) & U & -> & ->)]; [left; auto|right]. exists w1, w2, v2. split; [reflexivity|]. split; [exact T|]. split; [intro Q; apply N1; exists "no-cache"; split; [now left|exact Q]|]. split; [reflexivity|].
      destruct U as [(x & -> & X)|(-> & -> & ->)]; [right; exists x; auto|left; auto].
    + intros [(S1 & -> & ->)|(name & rest & u & -> & T & N1 & -> & U)]; [left; split; auto|right]. exists name, rest, (VStr name), u, [], cs. split; [reflexivity|]. split; [split; [|auto]; split; [exact T|intros (x & [<-|[]] & Q); contradiction]|]. split; [|auto].
      destruct U as [(-> & -> & ->)|(x & -> & X)]; [right; auto|left; exists x; auto].
Qed.

Lemma tags_mean : is_proper (comma_list1 entity_tag) /\ means_as (comma_list1 entity_tag) (list_spec tag_reading list1_shape).
Proof.
  apply (@lists_mean entity_tag tag_reading); [reflexivity| |].
  - intros n w v cs. rewrite entity_tag_M. unfold tag_reading. split.
    + intros (t & O & E & Q & P). exists (tag_notes t). split; [exists t; auto|now apply Permutation_sym].
    + intros (c & (t & O & E & Q & ->) & P). exists t. repeat (split; [assumption|]). now apply Permutation_sym.
  - intros w v cs (t & _ & _ & -> & _). split; discriminate.
Qed.
Lemma star_or_tags_M n : is_M (pivot_ n (alt (lit "*") (comma_list1 entity_tag))) star_or_tags.
Proof.
  apply d_seal, n_M. eapply n_ext; [apply n_alt; [apply n_text, (@lit_textual nested "*"); reflexivity|apply d_nodeV; [reflexivity|apply (proj2 (means_is _ _) (proj2 tags_mean))]]|].
  intros w v cs. unfold either, star_or_tags, plain. split; (intros [(-> & -> & ->)|H]; [left; auto|right; exact H]).
Qed.
Lemma If_Range_M : is_M If_Range (fun w v cs => tag_reading w v cs \/ a_date w v cs).
Proof. apply d_seal, n_M, n_alt; [apply tag_V|apply date_V]. Qed.
Lemma Retry_After_M : is_M Retry_After (fun w v cs => a_date w v cs \/ all1 is_digit w /\ v = number w /\ cs = []).
Proof. apply d_seal, n_M, n_alt; [apply date_V|]. apply n_seal; [reflexivity|]. apply n_M, n_digits. Qed.

Lemma Silence_item : is_M (seq2 notice_id (maybe_ (seq2 (skip RWS) resp))) silence_text.
Proof.
  assert (R : N_ (seq2 (skip RWS) resp) (gap_before white_space (plain (same_text "resp") (fun _ => VBool true)))).
  { eapply seq_before; [apply RWS_gap|]. apply n_A, n_seal; [reflexivity|]. apply n_M, n_subst, same_textual. }
  eapply is_M_ext; [apply two_M; [| |apply n_A, n_seal; [reflexivity|]; apply n_M, n_digits|apply n_A, n_maybe, R]|].
  - vis.
  - vis.
  - intros w v cs. unfold silence_text. split.
    + intros (w1 & w2 & v1 & u & c1 & c2 & -> & (D & -> & ->) & U & -> & ->). exists w1, w2, u. split; [reflexivity|]. split; [exact D|]. split; [reflexivity|].
      destruct U as [(g & z & k1 & k2 & -> & G & (Z & -> & ->) & ->)|(-> & -> & ->)]; [right; exists g, z; rewrite app_nil_r; auto|left; auto].
    + intros (n & rest & u & -> & D & -> & U). exists n, rest, (number n), u, [], cs. split; [reflexivity|]. split; [split; auto|]. split; [|auto].
      destruct U as [(-> & -> & ->)|(g & x & -> & G & X & ->)]; [right; auto|left]. exists g, x, cs, []. rewrite app_nil_r. split; [reflexivity|]. split; [exact G|]. split; [split; auto|reflexivity].
Qed.

Lemma obf_textual n : textual (pivot_ n (add (lit "_") (string1 (alt (alt (alt (alt ALPHA DIGIT) (lit ".")) (lit "_")) (lit "-"))))) obf_text.
Proof.
  apply textual_seal; [reflexivity|]. apply (@lit_before nested 95%N); [apply (@lit1 nested "_"); reflexivity|].
  apply (@textual_string1_class nested (alt (alt (alt (alt ALPHA DIGIT) (lit ".")) (lit "_")) (lit "-")) None (bits_of (alt (alt (alt (alt ALPHA DIGIT) (lit ".")) (lit "_")) (lit "-")))); [reflexivity|apply obf_bits].
Qed.
Lemma nodename_V : N_ nodename (fun w v cs => node_name w v /\ cs = []).
Proof.
  apply n_seal; [reflexivity|]. apply n_M.
  eapply n_ext; [apply n_alt; [apply n_alt; [apply n_alt; [apply n_text, ipv4_textual|apply (@mark_after nested _ "]"); [reflexivity|apply n_A, (@mark_before nested _ "["); [reflexivity|apply n_A, n_text, ipv6_textual]]]|apply n_text, same_textual]|apply n_text, obf_textual]|].
  intros w v cs. unfold either, node_name. split.
  - intros [[[(H & -> & ->)|(u & -> & (x & -> & (X & -> & ->)))]|(H & -> & ->)]|(H & -> & ->)]; (split; [|reflexivity]); auto. right. exists x. auto.
  - intros ([([H|[H|H]] & ->)|(x & -> & X & ->)] & ->).
    + left. left. left. split; auto.
    + left. right. split; auto.
    + right. split; auto.
    + left. left. right. exists (91%N :: x). split; [reflexivity|]. exists x. split; [reflexivity|]. split; auto.
Qed.
Lemma node_port_V : N_ node_port (fun w v cs => node_port_text w v /\ cs = []).
Proof.
  apply n_seal; [reflexivity|]. apply n_M.
  eapply n_ext; [apply n_alt; [apply n_seal; [reflexivity|]; apply n_M, n_int; [apply digits_; lia|]|apply n_text, obf_textual]|].
  - intros w (F & L). split; [intros ->; cbn in L; lia|exact F].
  - intros w v cs. unfold either, node_port_text, plain, number. split.
    + intros [(H & -> & ->)|(H & -> & ->)]; auto.
    + intros ([(H & ->)|(H & ->)] & ->); auto.
Qed.
Lemma node_M : is_M node_7239 node_text.
Proof.
  assert (V1 : visible (fun w v cs => node_name w v /\ cs = [])) by (intros w v cs ([(_ & ->)|(x & _ & _ & ->)] & _); discriminate).
  assert (V2 : visible (fun w v cs => node_port_text w v /\ cs = [])) by (intros w v cs ([(_ & ->)|(_ & ->)] & _); discriminate).
  apply d_seal. eapply is_M_ext; [apply two_M; [exact V1| |apply n_A, nodename_V|apply n_A, n_maybe, (@mark_before nested _ ":"); [reflexivity|apply n_A, node_port_V]]|].
  - vis. exact V2.
  - intros w v cs. unfold node_text. split.
    + intros (w1 & w2 & v1 & u & c1 & c2 & -> & (D & ->) & U & -> & ->). exists w1, w2, v1, u. split; [reflexivity|]. split; [exact D|]. split; [reflexivity|].
      destruct U as [(p & -> & (P & ->))|(-> & -> & ->)]; (split; [reflexivity|]); [right; exists p; auto|left; auto].
    + intros (n & rest & nv & u & -> & D & -> & -> & U). exists n, rest, nv, u, [], []. split; [reflexivity|]. split; [auto|]. split; [|auto].
      destruct U as [(-> & ->)|(p & -> & P)]; [right; auto|left; exists p; auto].
Qed.

Lemma scope_token_textual : textual scope_token (all1 is_nq).
Proof. apply textual_seal; [reflexivity|]. apply (@textual_string1_class nested NQCHAR (Some (s "NQCHAR")) (bits_of NQCHAR)); [reflexivity|apply nq_bits]. Qed.
Lemma between_more c x l : between c (x :: l) = x ++ flat_map (fun y => c :: y) l.
Proof. revert x. induction l as [|y l IH]; intro x; [symmetry; apply app_nil_r|]. change (between c (x :: y :: l)) with (x ++ c :: between c (y :: l)). rewrite IH. reflexivity. Qed.
Lemma scope_M : is_M scope scope_text.
Proof.
  apply d_seal, n_M. eapply n_ext; [apply modl_V; [|apply n_A, n_text, scope_token_textual|apply each_den; [apply sp_gap|apply n_A, n_text, scope_token_textual]]|].
  - vis.
  - intros w v cs. unfold scope_text.
    assert (X : forall r us c, each_after (fun w cs => w = [32%N] /\ cs = []) (plain (all1 is_nq) VStr) r us c <-> exists l, r = flat_map (fun y => 32%N :: y) l /\ Forall (all1 is_nq) l /\ us = map VStr l /\ c = []).
    { intros r us c. split.
      - induction 1 as [|g c1 x u c2 ws vs css (-> & ->) (T & -> & ->) _ (l & -> & F & -> & ->)]; [exists []; auto|]. exists (x :: l). split; [reflexivity|]. split; [now constructor|]. auto.
      - intros (l & -> & F & -> & ->). induction F as [|x l T F IH]; [constructor|]. cbn [flat_map map]. apply (@part_after (fun w cs => w = [32%N] /\ cs = []) (plain (all1 is_nq) VStr) [32%N] [] x (VStr x) []); [auto|split; auto|exact IH]. }
    split.
    + intros (w1 & w2 & u & us & c1 & c2 & -> & (T & -> & ->) & R & -> & ->). apply X in R. destruct R as (l & -> & F & -> & ->). exists (w1 :: l). rewrite between_more. split; [reflexivity|]. split; [discriminate|]. split; [now constructor|auto].
    + intros ([|x l] & -> & N1 & F & -> & ->); [now destruct N1|]. inversion F; subst. rewrite between_more. exists x, (flat_map (fun y => 32%N :: y) l), (VStr x), (map VStr l), [], []. split; [reflexivity|]. split; [split; auto|]. split; [apply X; eauto|auto].
Qed.
Lemma reg_rel_V : N_ reg_rel_type (plain registered_rel (named "CaseInsensitive")).
Proof.
  apply n_seal; [reflexivity|]. apply n_M, n_class. eapply textual_ext; [apply textual_add; [apply (@class_one nested LOALPHA (Some (s "LOALPHA")) (bits_of LOALPHA)); [reflexivity|apply lower_bits]|apply (@textual_string_class nested (alt (alt (alt LOALPHA DIGIT) (lit ".")) (lit "-")) None (bits_of (alt (alt (alt LOALPHA DIGIT) (lit ".")) (lit "-")))); [reflexivity|apply rel_bits]]|].
  intro w. unfold registered_rel. split; [intros (x & y & -> & (c & -> & C) & R); exists c, y; auto|]. intros (c & x & -> & C & R). exists [c], x. split; [reflexivity|]. split; [exists c; auto|exact R].
Qed.
Lemma relation_V : N_ relation_type rel_type.
Proof.
  apply n_seal; [reflexivity|]. apply n_M. eapply n_ext; [apply n_alt; [apply reg_rel_V|apply n_text, textual_seal; [reflexivity|apply uri_textual]]|].
  intros w v cs. unfold either, rel_type, plain. tauto.
Qed.
Lemma rel_M : is_M rel rel_text.
Proof.
  assert (G : den (A (skip (string1 SP))) (gap spaces)).
  { apply g_skip. apply (@textual_string1_class nested SP (Some (s "SP")) (bits_of SP)); [reflexivity|octet_tac]. }
  apply d_seal, n_M. eapply n_ext; [apply modl_V; [|apply n_A, relation_V|apply each_den; [exact G|apply n_A, relation_V]]|].
  - intros w v cs (_ & [(_ & ->)|(_ & ->)]); discriminate.
  - intros w v cs. unfold rel_text. split.
    + intros (w1 & w2 & u & us & c1 & c2 & -> & X & R & -> & ->). exists w1, w2, u, us, c1. pose proof X as (-> & _). auto.
    + intros (x & rest & u & us & c & -> & X & R & ->). exists x, rest, u, us, c, cs. pose proof X as (-> & _). auto.
Qed.
Lemma origin_textual_ : textual origin origin_of.
Proof.
  apply textual_seal; [reflexivity|]. eapply textual_ext; [apply textual_add; [apply textual_add; [apply textual_add; [apply scheme_textual|apply (@lit1 nested "://"); reflexivity]|apply host_textual]|apply perhaps_textual, lit_before; [apply (@lit1 nested ":"); reflexivity|apply port_textual]]|].
  intro w. unfold origin_of, host_and_port. split.
  - intros (u & p & -> & (u' & h & -> & (x & m & -> & X & ->) & H) & P). exists x, (h ++ p). rewrite <- !app_assoc. split; [reflexivity|]. split; [exact X|]. exists h, p. auto.
  - intros (x & ? & -> & X & (h & p & -> & H & P)). exists ((x ++ s "://") ++ h), p. split; [rewrite <- !app_assoc; reflexivity|]. split; [|exact P]. exists (x ++ s "://"), h. split; [reflexivity|]. split; [|exact H]. exists x, (s "://"). auto.
Qed.
Lemma exactly_textual x : textual (case_sens (s x)) (fun w => w = s x).
Proof.
  eapply textual_ext; [apply (@textual_literal rec_rules pf true)|]. generalize (s x) as u. intros u w. revert w. induction u as [|c u IH]; intro w; split; intro H.
  - now inversion H.
  - subst w. constructor.
  - inversion H as [|? ? ? ? H1 H2]; subst. apply IH in H2. unfold same_c in H1. congruence.
  - subst w. constructor; [reflexivity|]. now apply IH.
Qed.
End Rest.
