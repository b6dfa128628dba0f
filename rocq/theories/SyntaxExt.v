(** Sequences of more than two values; encoded parameters, Content-Disposition,
    Via, Warning and others. *)
From Coq Require Import ZifyBool ZifyNat ZifyN Permutation String.
From Verif Require Import Base Earley EarleySpec Parse Grammar GrammarSem GrammarLang GrammarWF GrammarVals GrammarExcl GrammarCalc
  Syntax Actions Reading HttpText HttpValues SyntaxVals SyntaxDen SyntaxParts SyntaxKit SyntaxMore SyntaxFields SyntaxAgents UriText SyntaxUri MoreValues SyntaxLang Utf8.
Open Scope nat_scope.
Open Scope list_scope.
Unset Strict Implicit.
Local Open Scope string_scope.
Local Open Scope list_scope.

Definition first (S : reading) : relation := fun w ns cs => exists v, S w v cs /\ ns = [v].
Definition then_ (R : relation) (S : reading) : relation := fun w ns cs => exists w1 w2 n1 v c1 c2, w = w1 ++ w2 /\ R w1 n1 c1 /\ S w2 v c2 /\ ns = n1 ++ [v] /\ cs = c1 ++ c2.
Definition then_gap (R : relation) (G : str -> list vcomplaint -> Prop) : relation := fun w ns cs => exists w1 w2 c1 c2, w = w1 ++ w2 /\ R w1 ns c1 /\ G w2 c2 /\ cs = c1 ++ c2.

Section Ext.
Variable nested : pyf -> list val -> val * list vcomplaint.
Notation pf := (pyfun nested).
Notation textual := (textual rec_rules pf).
Notation M := (M rec_rules pf).
Notation V := (V rec_rules pf).
Notation A := (A rec_rules pf).
Notation is_M := (is_M nested).
Notation N_ := (SyntaxKit.N nested).

Lemma k_first x S : visible S -> N_ x S -> den (A x) (first S).
Proof. intros VS H. eapply den_ext; [apply n_A, H|]. intros w ns cs. unfold rnode, first. split; intros (v & X & ->); exists v; rewrite (unskip_one (VS _ _ _ X)); auto. Qed.
Lemma kv_then x y R S : visible S -> den (A x) R -> N_ y S -> den (V (seq2 x y)) (then_ R S).
Proof.
  intros VS H1 H2. eapply den_ext; [apply (d_seq H1 (k_first VS H2))|]. intros w ns cs. unfold then_, first, rseq. split.
  - intros (w1 & w2 & n1 & n2 & c1 & c2 & -> & -> & -> & X & (v & Y & ->)). exists w1, w2, n1, v, c1, c2. auto.
  - intros (w1 & w2 & n1 & v & c1 & c2 & -> & X & Y & -> & ->). exists w1, w2, n1, [v], c1, c2. repeat (split; [reflexivity|]). split; [exact X|]. eauto.
Qed.
Lemma k_then x y R S : visible S -> den (A x) R -> N_ y S -> den (A (seq2 x y)) (then_ R S).
Proof. intros VS H1 H2. apply d_eph; [reflexivity|]. now apply kv_then. Qed.
Lemma k_gap x y R G : den (A x) R -> den (A y) (gap G) -> den (A (seq2 x y)) (then_gap R G).
Proof.
  intros H1 H2. apply d_eph; [reflexivity|]. eapply den_ext; [apply (d_seq H1 H2)|]. intros w ns cs. unfold then_gap, gap, rseq. split.
  - intros (w1 & w2 & n1 & n2 & c1 & c2 & -> & -> & -> & X & (Y & ->)). rewrite app_nil_r. exists w1, w2, c1, c2. auto.
  - intros (w1 & w2 & c1 & c2 & -> & X & Y & ->). exists w1, w2, ns, [], c1, c2. rewrite app_nil_r. auto 8.
Qed.
Lemma k_class c x R : den (V x) R -> N_ (wrap (class c) x) (fun w v cs => exists ns, R w ns cs /\ v = VObj (s c) ns).
Proof.
  intro H. eapply n_ext; [apply applied_V, H|]. intros w v cs. unfold applied. split.
  - intros (n & c1 & k & X & E & ->). injection E as <- <-. rewrite app_nil_r. eauto.
  - intros (ns & X & ->). exists ns, cs, []. rewrite app_nil_r. auto.
Qed.

Lemma charset_bits c : N.testbit (bits_of mime_charsetc) c = is_mime_charset c.
Proof. revert c. unfold is_mime_charset, is_alnum. octet_tac. Qed.
Lemma attr_bits c : N.testbit (bits_of attr_char) c = is_attr c.
Proof. revert c. unfold is_attr, is_alnum. octet_tac. Qed.
Lemma charset_8187_V : N_ charset_8187 (plain (all1 is_mime_charset) (named "CaseInsensitive")).
Proof.
  apply n_seal; [reflexivity|]. apply n_M, n_class. apply textual_seal; [reflexivity|]. apply (@textual_string1_class nested mime_charsetc (Some (s "mime-charsetc")) (bits_of mime_charsetc)); [reflexivity|apply charset_bits].
Qed.
Lemma pct_8187_textual : textual pct_encoded_8187 (fun w => exists h l, w = [37%N; h; l] /\ is_hex h = true /\ is_hex l = true).
Proof. apply textual_seal; [reflexivity|]. pose proof (@pct_textual nested) as H.
  eapply textual_ext; [apply textual_add; [apply textual_add; [apply (@lit1 nested "%"); reflexivity|apply hex_textual]|apply hex_textual]|].
  intro w. split.
  - intros (x & y & -> & (a & b & -> & -> & (h & -> & Hh)) & (l & -> & Hl)). exists h, l. auto.
  - intros (h & l & -> & Hh & Hl). exists [37%N; h], [l]. split; [reflexivity|]. split; [|exists l; auto]. exists [37%N], [h]. split; [reflexivity|]. split; [reflexivity|]. exists h; auto.
Qed.
Lemma attr_textual : textual (string_ (alt pct_encoded_8187 attr_char)) (encoded is_attr).
Proof.
  apply encoded_textual. eapply textual_ext; [apply textual_alt; [apply pct_8187_textual|apply (@class_one nested attr_char (Some (s "attr-char")) (bits_of attr_char)); [reflexivity|apply attr_bits]]|].
  intro w. unfold piece. tauto.
Qed.
Lemma encoded_small p w : (forall c, p c = true -> (c < 256)%N) -> encoded p w -> Forall (fun c => (c < 256)%N) w.
Proof. intros I E. induction E; [constructor|constructor; auto|]. constructor; [lia|]. constructor; [now apply hex_digit_range|]. constructor; [now apply hex_digit_range|assumption]. Qed.
Lemma attr_small c : is_attr c = true -> (c < 256)%N.
Proof. unfold is_attr, is_alnum, is_digit, is_alpha, HttpText.among. change (s "!#$&+-.^_`|~") with [33;35;36;38;43;45;46;94;95;96;124;126]%N. cbn [existsb]. lia. Qed.
Definition bytes_text : reading := fun w v cs => exists b, encoded is_attr w /\ decodes w b /\ v = VBytes b /\ cs = [].
Lemma value_chars_V : N_ value_chars bytes_text.
Proof.
  apply n_seal; [reflexivity|]. apply n_M.
  apply (n_py (F := FPy PPctDecode) (S := plain (encoded is_attr) VBytes)); [vis| |].
  - apply (n_py (F := FPy PForceBytes) (S := plain (encoded is_attr) VStr)); [vis|apply n_text, attr_textual|].
    assert (X : forall w, encoded is_attr w -> map (fun c => if (c <? 256)%N then c else 63%N) w = w).
    { intros w E. apply (encoded_small attr_small) in E. induction E as [|c w C E IH]; [reflexivity|]. cbn [map]. rewrite IH. replace (c <? 256)%N with true by lia. reflexivity. }
    intros w v cs. split.
    + intros (E & -> & ->). exists (VStr w), [], []. split; [split; auto|]. split; [|reflexivity]. cbn [call_func pyfun]. now rewrite X.
    + intros (u & c & k & (E & -> & ->) & Q & ->). cbn [call_func pyfun] in Q. rewrite X in Q by exact E. injection Q as <- <-. split; auto.
  - intros w v cs. split.
    + intros (b & E & D & -> & ->). exists (VBytes w), [], []. split; [split; auto|]. split; [|reflexivity]. cbn [call_func pyfun]. apply decodes_unique in D. now rewrite <- D.
    + intros (u & c & k & (E & -> & ->) & Q & ->). cbn [call_func pyfun] in Q. injection Q as <- <-. exists (pct_decode w). split; [exact E|]. split; [now apply (@pct_decodes (List.length w))|auto].
Qed.
Lemma ext_value_V : N_ ext_value ext_value_text.
Proof.
  apply n_seal; [reflexivity|]. apply n_M.
  set (S0 := fun w v cs => exists c l x lv b, w = c ++ 39%N :: l ++ 39%N :: x /\ all1 is_mime_charset c /\ (l = [] /\ lv = VNone \/ language_tag l /\ lv = named "LanguageTag" l) /\
    encoded is_attr x /\ decodes x b /\ v = VObj (s "ExtValue") [named "CaseInsensitive" c; lv; VBytes b] /\ cs = ([] : list vcomplaint)).
  apply (n_py (F := FPy PCheckExtValue) (S := S0)).
  - intros w v cs (c & l & x & lv & b & _ & _ & _ & _ & _ & -> & _). discriminate.
  - eapply n_ext; [apply k_class, kv_then; [|apply k_gap; [apply k_then; [|apply k_gap; [apply k_first; [|apply charset_8187_V]|apply (@g_mark nested "'"); reflexivity]|apply n_maybe, Language_Tag_V]|apply (@g_mark nested "'"); reflexivity]|apply value_chars_V]|].
    + intros w v cs (b & _ & _ & -> & _). discriminate.
    + vis.
    + vis.
    + intros w v cs. unfold S0. split.
      * intros (ns & (w1 & x & n1 & v2 & c1 & c2 & -> & H1 & (b & E & D & -> & ->) & -> & ->) & ->). destruct H1 as (w3 & m & c3 & c4 & -> & H1 & (-> & ->) & ->). destruct H1 as (w5 & l & n2 & lv & c5 & c6 & -> & H1 & L & -> & ->). destruct H1 as (w7 & m & c7 & c8 & -> & H1 & (-> & ->) & ->). destruct H1 as (cv & (C & -> & ->) & ->).
        exists w7, l, x, lv, b. change (s "'") with [39%N]. rewrite <- !app_assoc. split; [reflexivity|]. split; [exact C|]. destruct L as [(T & -> & ->)|(-> & -> & ->)]; auto 8.
      * intros (c & l & x & lv & b & -> & C & L & E & D & -> & ->). exists ([named "CaseInsensitive" c; lv] ++ [VBytes b]). split; [|reflexivity].
        exists (c ++ 39%N :: l ++ [39%N]), x, [named "CaseInsensitive" c; lv], (VBytes b), [], []. split; [rewrite <- app_assoc; cbn [app]; now rewrite <- app_assoc|]. split; [|split; [exists b; auto|auto]].
        exists (c ++ 39%N :: l), [39%N], [], []. split; [rewrite <- app_assoc; reflexivity|]. split; [|auto].
        exists (c ++ [39%N]), l, [named "CaseInsensitive" c], lv, [], []. split; [rewrite <- app_assoc; reflexivity|]. split; [|split; [|auto]].
        -- exists c, [39%N], [], []. split; [reflexivity|]. split; [|auto]. exists (named "CaseInsensitive" c). split; [split; auto|reflexivity].
        -- destruct L as [(-> & ->)|(T & ->)]; [right; auto|left; split; auto].
  - intros w v cs. unfold ext_value_text, S0, charset_notes.
    assert (X : forall c b k, check_ext_value (VObj (s "ExtValue") [named "CaseInsensitive" c; v; VBytes b]) = k -> k = k) by auto. clear X.
    assert (X : forall c lv b, exists k, check_ext_value (VObj (s "ExtValue") [named "CaseInsensitive" c; lv; VBytes b]) = (VObj (s "ExtValue") [named "CaseInsensitive" c; lv; VBytes b], k) /\ forall k', charset_notes c b k' <-> k' = k).
    { intros c lv b. unfold check_ext_value, named, charset_notes. destruct (str_eqb (map lower_c c) (s "utf-8")) eqn:Q.
      - apply str_eqb_eq in Q. assert (U : same_text "utf-8" c) by (apply same_text_lower; now rewrite Q). destruct (utf8_ok b) eqn:O.
        + apply utf8_decodes in O. eexists. split; [reflexivity|]. intro k'. split; [intros [[H _]|(_ & [(_ & ->)|(H & _)])]; [contradiction|reflexivity|contradiction]|]. intros ->. right. auto.
        + assert (O' : ~ utf8_text b) by (intro H; apply utf8_decodes in H; congruence). eexists. split; [reflexivity|]. intro k'. split; [intros [[H _]|(_ & [(H & _)|(_ & ->)])]; [contradiction|contradiction|reflexivity]|]. intros ->. right. auto.
      - assert (U : ~ same_text "utf-8" c). { intro H. apply same_text_lower in H. rewrite <- H in Q. discriminate Q. }
        eexists. split; [reflexivity|]. intro k'. split; [intros [[_ ->]|(H & _)]; [reflexivity|contradiction]|]. intros ->. left. auto. }
    split.
    + intros (c & l & x & lv & b & -> & C & L & E & D & -> & K). destruct (X c lv b) as (k & Q & U). apply U in K. subst cs. exists (VObj (s "ExtValue") [named "CaseInsensitive" c; lv; VBytes b]), [], k. split; [exists c, l, x, lv, b; auto 8|]. split; [exact Q|reflexivity].
    + intros (u & c0 & k & (c & l & x & lv & b & -> & C & L & E & D & -> & ->) & Q & ->). destruct (X c lv b) as (k' & Q' & U). cbn [call_func pyfun] in Q. rewrite Q' in Q. injection Q as <- <-. exists c, l, x, lv, b. repeat (split; [assumption || reflexivity|]). now apply U.
Qed.
Lemma vis_ext : visible ext_value_text.
Proof. intros w v cs (c & l & x & lv & b & _ & _ & _ & _ & _ & -> & _). discriminate. Qed.

Lemma value_V : N_ value word.
Proof. apply n_seal; [reflexivity|]. apply n_M. exact (word_den nested). Qed.
Lemma param_den x y L (S : reading) : textual x L -> visible S -> N_ y S ->
  den (V (seq2 (seq2 (wrap (class "CaseInsensitive") x) (skip (seq2 (seq2 OWS (lit "=")) OWS))) y)) (fun w ns cs => exists name a b z u,
    w = name ++ a ++ 61%N :: b ++ z /\ L name /\ ows a /\ ows b /\ ns = [named "CaseInsensitive" name; u] /\ S z u cs).
Proof.
  intros T VS H. eapply den_ext; [apply kv_then; [exact VS|apply k_gap; [apply k_first; [|apply n_class, T]|apply (@around_gap nested "="); reflexivity]|exact H]|].
  - vis.
  - intros w ns cs. split.
    + intros (w1 & z & n1 & u & c1 & c2 & -> & (name & g & c3 & c4 & -> & (v1 & (N1 & -> & ->) & ->) & ((a & b & Oa & Ob & ->) & ->) & ->) & Z & -> & ->). exists name, a, b, z, u. change (s "=") with [61%N]. rewrite <- !app_assoc. split; [reflexivity|auto 6].
    + intros (name & a & b & z & u & -> & N1 & Oa & Ob & -> & Z). exists (name ++ a ++ 61%N :: b), z, [named "CaseInsensitive" name], u, [], cs. split; [repeat (rewrite <- app_assoc; cbn [app]); reflexivity|]. split; [|auto].
      exists name, (a ++ 61%N :: b), [], []. split; [reflexivity|]. split; [exists (named "CaseInsensitive" name); split; [split; auto|reflexivity]|]. split; [|reflexivity]. split; [|reflexivity]. exists a, b. auto.
Qed.
Lemma k_tuple x R : den (V x) R -> (forall w ns cs, R w ns cs -> 2 <= List.length ns /\ Forall (fun v => v <> VSkip) ns) -> is_M x (fun w v cs => exists ns, R w ns cs /\ v = VTuple ns).
Proof.
  intros H K. eapply is_M_ext; [apply (d_M H)|]. intros w v cs.
  assert (X : forall ns, R w ns cs -> collapse ns = VTuple ns).
  { intros ns Hn. apply K in Hn. destruct Hn as [L F]. unfold collapse. replace (filter (fun v => negb (is_vskip v)) ns) with ns; [destruct ns as [|? [|? ?]]; cbn in L; try lia; reflexivity|].
    clear L. induction F as [|u ns U F IH]; [reflexivity|]. cbn [filter]. rewrite <- IH. destruct u; try reflexivity. congruence. }
  split; intros (ns & Hn & ->); exists ns; (split; [exact Hn|]); [|symmetry]; now apply X.
Qed.
Lemma disposition_param_V : N_ disposition_parm disposition_param.
Proof.
  apply n_seal; [reflexivity|].
  assert (T : forall x, forallb is_tchar (s x) && negb (Nat.eqb (List.length (s x)) 0) = true -> forall w, same_text x w -> token_text w) by (intros x E w; now apply same_token).
  assert (F : N_ filename_parm (fun w v cs => exists name a b x u, w = name ++ a ++ 61%N :: b ++ x /\ ows a /\ ows b /\ v = VTuple [named "CaseInsensitive" name; u] /\
    (same_text "filename" name /\ word x u cs \/ same_text "filename*" name /\ ext_value_text x u cs))).
  { apply n_seal; [reflexivity|]. eapply is_M_ext; [apply k_tuple; [apply d_alt; apply param_den; [apply same_textual|apply vis_word|apply value_V|apply same_textual|apply vis_ext|apply ext_value_V]|]|].
    - intros w ns cs [(name & a & b & z & u & _ & _ & _ & _ & -> & Z)|(name & a & b & z & u & _ & _ & _ & _ & -> & Z)]; (split; [cbn; lia|]); (constructor; [discriminate|]); (constructor; [|constructor]); [apply (vis_word Z)|apply (vis_ext Z)].
    - intros w v cs. split.
      + intros (ns & [(name & a & b & z & u & -> & N1 & Oa & Ob & -> & Z)|(name & a & b & z & u & -> & N1 & Oa & Ob & -> & Z)] & ->); exists name, a, b, z, u; auto 8.
      + intros (name & a & b & z & u & -> & Oa & Ob & -> & [(N1 & Z)|(N1 & Z)]); exists [named "CaseInsensitive" name; u]; (split; [|reflexivity]); [left|right]; exists name, a, b, z, u; auto 8. }
  assert (E : N_ disp_ext_parm (fun w v cs => exists name a b x u, w = name ++ a ++ 61%N :: b ++ x /\ ows a /\ ows b /\ v = VTuple [named "CaseInsensitive" name; u] /\
    (token_text name /\ ~ same_text "filename" name /\ ~ same_text "filename*" name) /\ word x u cs)).
  { apply n_seal; [reflexivity|]. eapply is_M_ext; [apply k_tuple; [apply param_den; [apply excluding_tokens; reflexivity|apply vis_word|apply value_V]|]|].
    - intros w ns cs (name & a & b & z & u & _ & _ & _ & _ & -> & Z); (split; [cbn; lia|]); (constructor; [discriminate|]); (constructor; [|constructor]); apply (vis_word Z).
    - intros w v cs. split.
      + intros (ns & (name & a & b & z & u & -> & (N1 & N2) & Oa & Ob & -> & Z) & ->). exists name, a, b, z, u. repeat (split; [assumption || reflexivity|]). split; [|exact Z]. split; [exact N1|]. split; intro Q; apply N2; [exists "filename"|exists "filename*"]; (split; [|exact Q]); cbn; auto.
      + intros (name & a & b & z & u & -> & Oa & Ob & -> & (N1 & N2 & N3) & Z); exists [named "CaseInsensitive" name; u]; (split; [|reflexivity]). exists name, a, b, z, u. repeat (split; [assumption || reflexivity|]). split; [|auto]. split; [exact N1|]. intros (x & [<-|[<-|[]]] & Q); contradiction. }
  apply n_M. eapply n_ext; [apply n_alt; [exact F|exact E]|]. intros w v cs. unfold either, disposition_param.
  assert (NE : forall name, same_text "filename" name -> ~ same_text "filename*" name) by (intros name H1 H2; apply same_text_lower in H1, H2; rewrite <- H1 in H2; discriminate H2).
  split.
  - intros [(name & a & b & x & u & -> & Oa & Ob & -> & [(N1 & Z)|(N1 & Z)])|(name & a & b & x & u & -> & Oa & Ob & -> & (N1 & N2 & N3) & Z)]; exists name, a, b, x, u; (split; [reflexivity|]).
    + split; [now apply (T "filename")|]. auto 8.
    + split; [now apply (T "filename*")|]. auto 8.
    + auto 9.
  - intros (name & a & b & x & u & -> & N1 & Oa & Ob & -> & [(Q & Z)|(Q & Z)]).
    + left. exists name, a, b, x, u. auto 8.
    + assert (D : same_text "filename" name \/ ~ same_text "filename" name). { rewrite same_text_lower. destruct (str_eqb (map lower_c (s "filename")) (map lower_c name)) eqn:R; [left; now apply str_eqb_eq|right]. intro X. apply str_eqb_eq in X. congruence. }
      destruct D as [D|D]; [left|right]; exists name, a, b, x, u; auto 9.
Qed.
Lemma vis_disposition : visible disposition_param.
Proof. intros w v cs (name & a & b & x & u & _ & _ & _ & _ & -> & _). discriminate. Qed.
Lemma Content_Disposition_M : is_M content_disposition disposition_text.
Proof.
  apply d_seal, n_M. eapply n_ext; [apply two_class; [| |apply n_A, n_seal; [reflexivity|]; apply n_M, n_class, token_textual|apply multidict_V, semis_den; [apply vis_disposition|apply n_A, disposition_param_V]]|].
  - vis.
  - intros w v cs (vs & _ & ->). discriminate.
  - intros w v cs. split.
    + intros (w1 & w2 & v1 & v2 & c1 & c2 & -> & (T & -> & ->) & (vs & Z & ->) & -> & ->). exists w1, w2, vs. auto.
    + intros (t & rest & ps & -> & T & Z & ->). exists t, rest, (named "CaseInsensitive" t), (VObj (s "MultiDict") [VList ps]), [], cs. split; [reflexivity|]. split; [split; auto|]. split; [eauto|auto].
Qed.

(** ** Via *)
Lemma received_protocol_V : N_ received_protocol (fun w v cs => received_protocol_text w v /\ cs = []).
Proof.
  apply n_seal; [reflexivity|]. apply n_M.
  assert (T : forall n, textual (pivot_ n token) token_text) by (intro n; apply textual_seal; [reflexivity|apply token_textual]).
  eapply n_ext; [apply two_class; [| |apply n_A, n_maybe, (@mark_after nested _ "/"); [reflexivity|apply n_A, n_text, T]|apply n_A, n_text, T]|].
  - vis.
  - vis.
  - intros w v cs. unfold received_protocol_text. split.
    + intros (w1 & w2 & v1 & v2 & c1 & c2 & -> & [(u & -> & (U & -> & ->))|(-> & -> & ->)] & (T2 & -> & ->) & -> & ->); (split; [|reflexivity]).
      * exists u, w2. split; [reflexivity|]. split; [exact T2|]. right. split; [rewrite <- app_assoc; reflexivity|exact U].
      * exists (s "HTTP"), w2. split; [reflexivity|]. split; [exact T2|]. left. auto.
    + intros ((name & version & -> & T2 & [(-> & ->)|(-> & T1)]) & ->).
      * exists [], version, (VStr (s "HTTP")), (VStr version), [], []. split; [reflexivity|]. split; [right; auto|]. split; [split; auto|auto].
      * exists (name ++ s "/"), version, (VStr name), (VStr version), [], []. split; [rewrite <- app_assoc; reflexivity|]. split; [left; exists name; split; [reflexivity|]; split; auto|]. split; [split; auto|auto].
Qed.
Lemma agent_textual n : textual (pivot_ n (alt (add host (maybe_str (add (lit ":") port))) pseudonym)) agent_text.
Proof. apply textual_seal; [reflexivity|]. apply textual_alt; [apply host_port_textual|]. apply textual_seal; [reflexivity|apply token_textual]. Qed.
Lemma vis_comment : visible comment_text.
Proof. intros w v cs H. destruct H as (x & t & _ & _ & ->). discriminate. Qed.
Lemma Via_item : is_M (seq2 (seq2 (seq2 received_protocol (skip RWS)) received_by) (maybe_ (seq2 (skip RWS) comment))) via_text.
Proof.
  assert (C : N_ (seq2 (skip RWS) comment) (gap_before white_space comment_text)) by (eapply seq_before; [apply RWS_gap|apply n_A, comment_V]).
  assert (VP : visible (fun w v cs => received_protocol_text w v /\ cs = [])) by (intros w v cs ((n & k & -> & _) & _); discriminate).
  eapply is_M_ext; [apply k_tuple; [apply kv_then; [|apply k_then; [|apply k_gap; [apply k_first; [exact VP|apply received_protocol_V]|apply RWS_gap]|apply n_text, agent_textual]|apply n_maybe, C]|]|].
  - vis. apply vis_comment.
  - vis.
  - intros w ns cs (w1 & w2 & n1 & u & c1 & c2 & _ & (w3 & w4 & n2 & x & c3 & c4 & _ & (w5 & w6 & c5 & c6 & _ & (p & (P & _) & ->) & _) & (_ & -> & _) & -> & _) & U & -> & _).
    cbn [app]. split; [cbn; lia|]. constructor; [destruct P as (? & ? & -> & _); discriminate|]. constructor; [discriminate|]. constructor; [|constructor]. destruct U as [(g & z & c7 & c8 & _ & _ & Z & _)|(_ & -> & _)]; [apply (vis_comment Z)|discriminate].
  - intros w v cs. unfold via_text. split.
    + intros (ns & (w1 & w2 & n1 & u & c1 & c2 & -> & (w3 & a & n2 & x & c3 & c4 & -> & (p & g & c5 & c6 & -> & (pv & (P & ->) & ->) & G & ->) & (Ag & -> & ->) & -> & ->) & U & -> & ->) & ->).
      exists p, g, a, w2, pv, u, c6, c2. rewrite <- !app_assoc. split; [reflexivity|]. split; [exact P|]. split; [exact G|]. split; [exact Ag|]. split; [reflexivity|]. split; [reflexivity|].
      destruct U as [(h & z & k1 & k2 & -> & H & Z & ->)|(-> & -> & ->)]; [right; exists h, z, k1, k2; auto|left; auto].
    + intros (p & g & a & rest & pv & u & c1 & c2 & -> & P & G & Ag & -> & -> & R). exists [pv; VStr a; u]. split; [|reflexivity].
      exists (p ++ g ++ a), rest, [pv; VStr a], u, c1, c2. split; [rewrite <- !app_assoc; reflexivity|]. split; [|split; [|auto]].
      * exists (p ++ g), a, [pv], (VStr a), c1, []. split; [rewrite <- app_assoc; reflexivity|]. split; [|split; [split; auto|split; [reflexivity|symmetry; apply app_nil_r]]]. exists p, g, [], c1. split; [reflexivity|]. split; [exists pv; auto|auto].
      * destruct R as [(-> & -> & ->)|(h & z & k1 & k2 & -> & H & Z & ->)]; [right; auto|left; exists h, z, k1, k2; auto].
Qed.
End Ext.
