(** What more symbols with parts mean: comments and names of programs, HSTS,
    Forwarded, Prefer, Accept and Accept-Language. *)
From Coq Require Import ZifyBool ZifyNat ZifyN Permutation String.
From Verif Require Import Base Earley EarleySpec Parse Grammar GrammarSem GrammarLang GrammarWF GrammarVals GrammarExcl GrammarCalc
  Syntax Actions Reading HttpText P_Grammar HttpValues SyntaxVals SyntaxDen SyntaxParts SyntaxKit SyntaxMore SyntaxFields.
Open Scope nat_scope.
Open Scope list_scope.
Unset Strict Implicit.
Local Open Scope string_scope.
Local Open Scope list_scope.

Definition comment_piece := alt (alt ctext (quoted_pair "()\")) comment_rec.

Section Agents.
Variable nested : pyf -> list val -> val * list vcomplaint.
Notation pf := (pyfun nested).
Notation textual := (textual rec_rules pf).
Notation M := (M rec_rules pf).
Notation V := (V rec_rules pf).
Notation A := (A rec_rules pf).
Notation is_M := (is_M nested).
Notation N_ := (SyntaxKit.N nested).

(** ** Comments *)
Definition one_char : reading := plain (fun w => exists c, w = [c] /\ is_ctext c = true) VStr.
Definition one_quoted : reading := fun w v cs => exists c, w = [92%N; c] /\ is_escapable c = true /\ v = VStr [c] /\
  cs = if N.eqb c 40 || N.eqb c 41 || N.eqb c 92 then [] else [(1017%N, [(s "char", VStr [c])])].
Definition a_piece : reading := either (either one_char one_quoted) (M comment_rec).
Lemma ctext_textual : textual ctext (fun w => exists c, w = [c] /\ is_ctext c = true).
Proof. apply (@textual_class nested ctext (Some (s "ctext")) (bits_of ctext)); [reflexivity|apply ctext_bits]. Qed.
Lemma piece_M : is_M comment_piece a_piece.
Proof.
  apply n_M, n_alt; [apply n_alt; [apply n_text, ctext_textual|]|].
  - apply d_nodeV; [reflexivity|]. intros w v cs. rewrite quoted_pair_M. unfold one_quoted, escapes, quoted_complaint.
    assert (E : forall c, HttpText.among (s "()\") c = N.eqb c 40 || N.eqb c 41 || N.eqb c 92) by (intro c; unfold HttpText.among; cbn -[N.eqb]; now rewrite orb_false_r, orb_assoc).
    split.
    + intros (c & -> & X & -> & ->). eexists. split; [exists c; repeat split; [exact X]|]. cbn [filter map]. rewrite E. now destruct (N.eqb c 40 || N.eqb c 41 || N.eqb c 92).
    + intros (cs' & (c & -> & X & -> & ->) & P). exists c. repeat split; [exact X|]. cbn [filter map]. rewrite E. destruct (N.eqb c 40 || N.eqb c 41 || N.eqb c 92); cbn [negb map].
      * now apply Permutation_nil.
      * now apply Permutation_length_1_inv.
  - apply d_nodeV; [reflexivity|]. intros w v cs. split; [intro H; exists cs; auto|]. intros (c & H & P). eapply M_perm; eauto.
Qed.
Lemma comment_unfold w v cs : M comment_rec w v cs <-> exists x vs cs', w = 40%N :: x ++ [41%N] /\ pieces a_piece x vs cs' /\ Permutation cs' cs /\
  v = match join_vals vs with Some t => VStr (40%N :: t ++ [41%N]) | None => VBad end.
Proof.
  unfold comment_rec. rewrite M_rec. change (Simple anon (rec_rules (s "comment"))) with (add (add (lit "(") (string_ comment_piece)) (lit ")")).
  assert (D : is_M (add (add (lit "(") (string_ comment_piece)) (lit ")"))
    (fun w v cs => exists x vs, w = 40%N :: x ++ [41%N] /\ pieces a_piece x vs cs /\ v = match join_vals vs with Some t => VStr (40%N :: t ++ [41%N]) | None => VBad end)).
  { eapply is_M_ext; [apply d_M; unfold add at 1; apply d_wrap, d_seq; [apply d_eph; [reflexivity|]; unfold add; apply d_wrap, d_seq; [apply d_textA, (@lit_textual nested "("); reflexivity|]; apply d_eph; [reflexivity|]; unfold string_; apply d_wrap, d_many, piece_M|apply d_textA, (@lit_textual nested ")"); reflexivity]|].
    intros w0 v0 cs0. split.
    - intros (ns & (n & c & u & k & (w1 & w2 & n1 & n2 & c1 & c2 & -> & -> & -> & (n' & c' & u' & k' & (w3 & w4 & n3 & n4 & c3 & c4 & -> & -> & -> & (-> & -> & ->) & (n'' & c'' & u'' & k'' & (vs & P & ->) & E'' & -> & ->)) & E' & -> & ->) & (-> & -> & ->)) & E & -> & ->) & ->).
      exists w4, vs. cbn [app]. split; [reflexivity|]. cbn [call_func] in E''. injection E'' as <- <-. rewrite !app_nil_r in *.
      destruct (join_vals vs) as [t|]; cbn [unskip app call_func] in E'; injection E' as <- <-; cbn [unskip app call_func] in E; injection E as <- <-; rewrite !app_nil_r; auto.
    - intros (x & vs & -> & P & ->).
      exists [match join_vals vs with Some t => VStr (40%N :: t ++ [41%N]) | None => VBad end]. split; [|now destruct (join_vals vs)].
      exists (match join_vals vs with Some t => [VStr (40%N :: t); VStr (s ")")] | None => [VBad; VStr (s ")")] end), cs0.
      exists (match join_vals vs with Some t => VStr (40%N :: t ++ [41%N]) | None => VBad end), [].
      split; [|split; [now destruct (join_vals vs)|split; [now destruct (join_vals vs)|now rewrite app_nil_r]]].
      exists (40%N :: x), [41%N]. exists [match join_vals vs with Some t => VStr (40%N :: t) | None => VBad end], [VStr (s ")")], cs0, []. split; [reflexivity|]. split; [now destruct (join_vals vs)|]. split; [now rewrite app_nil_r|]. split; [|split; [reflexivity|split; reflexivity]].
      exists [VStr (s "("); match join_vals vs with Some t => VStr t | None => VBad end], cs0. exists (match join_vals vs with Some t => VStr (40%N :: t) | None => VBad end), [].
      split; [|split; [now destruct (join_vals vs)|split; [now destruct (join_vals vs)|now rewrite app_nil_r]]].
      exists [40%N], x, [VStr (s "(")], [match join_vals vs with Some t => VStr t | None => VBad end], [], cs0. split; [reflexivity|]. split; [reflexivity|]. split; [reflexivity|]. split; [split; auto|].
      exists [VList vs], cs0, (match join_vals vs with Some t => VStr t | None => VBad end), []. split; [exists vs; auto|]. split; [reflexivity|]. split; [now destruct (join_vals vs)|now rewrite app_nil_r]. }
  split.
  - intro H. apply D in H. destruct H as (cs' & (x & vs & -> & P & ->) & Q). exists x, vs, cs'. auto.
  - intros (x & vs & cs' & -> & P & Q & ->). apply D. exists cs'. split; [|exact Q]. exists x, vs. auto.
Qed.
Lemma comment_sound n : forall w v cs, List.length w <= n -> M comment_rec w v cs -> exists x t cs', w = 40%N :: x ++ [41%N] /\ inside_comment x t cs' /\ v = VStr (40%N :: t ++ [41%N]) /\ Permutation cs' cs.
Proof.
  induction n as [|n IH]; intros w v cs L H; apply comment_unfold in H; destruct H as (x & vs & c & -> & P & Q & ->); [cbn [List.length] in L; lia|].
  assert (Lx : List.length x <= n) by (cbn [List.length] in L; rewrite app_length in L; cbn [List.length] in L; lia). clear L.
  assert (X : exists t c', join_vals vs = Some t /\ inside_comment x t c' /\ Permutation c' c).
  { clear Q cs. induction P as [|w ws v vs c css R P IP]; [exists [], []; repeat split; constructor|].
    rewrite app_length in Lx. destruct IP as (t & c' & J & I & Q); [lia|]. cbn [join_vals]. destruct R as [[((d & -> & D) & -> & ->)|(d & -> & D & -> & ->)]|R].
    - rewrite J. exists (d :: t), c'. split; [reflexivity|]. split; [now constructor|exact Q].
    - rewrite J. exists (d :: t). eexists. split; [reflexivity|]. split; [apply inside_quoted; [exact D|exact I]|]. now apply Permutation_app_head.
    - apply IH in R; [|lia]. destruct R as (y & u & c0 & -> & I' & -> & Q'). rewrite J. exists (40%N :: u ++ 41%N :: t), (c0 ++ c'). cbn [option_map]. assoc. split; [reflexivity|]. split; [now apply inside_nested|]. now apply Permutation_app. }
  destruct X as (t & c' & -> & I & Q'). exists x, t, c'. repeat (split; [auto|]). now rewrite Q'.
Qed.
Lemma comment_complete x t cs : inside_comment x t cs -> exists vs cs', pieces a_piece x vs cs' /\ join_vals vs = Some t /\ Permutation cs' cs.
Proof.
  intro H. induction H as [|c x t cs C H IH|c x t cs C H IH|y u c1 x t c2 H1 IH1 H2 IH2]; [exists [], []; repeat split; constructor| | |].
  - destruct IH as (vs & c' & P & J & Q). exists (VStr [c] :: vs), ([] ++ c'). split; [apply (@pc_cons _ [c]); [|exact P]|split; [cbn [join_vals]; now rewrite J|exact Q]]. left. left. split; [exists c; auto|auto].
  - destruct IH as (vs & c' & P & J & Q). exists (VStr [c] :: vs). eexists. split; [apply (@pc_cons _ [92%N; c]); [|exact P]|split; [cbn [join_vals]; now rewrite J|apply Permutation_app_head, Q]]. left. right. exists c. auto.
  - destruct IH1 as (vs1 & c1' & P1 & J1 & Q1). destruct IH2 as (vs & c' & P & J & Q). exists (VStr (40%N :: u ++ [41%N]) :: vs), (c1 ++ c').
    replace (40%N :: y ++ 41%N :: x) with ((40%N :: y ++ [41%N]) ++ x) by now assoc. split; [|split; [cbn [join_vals]; rewrite J; cbn [option_map]; now assoc|now apply Permutation_app_head]].
    apply pc_cons; [|exact P]. right. apply comment_unfold. exists y, vs1, c1'. rewrite J1. auto.
Qed.
Lemma comment_M : is_M comment comment_text.
Proof.
  apply d_seal. apply n_M. apply (n_py (F := FPy PStripParens) (S := fun w v cs => exists x t, w = 40%N :: x ++ [41%N] /\ inside_comment x t cs /\ v = VStr (40%N :: t ++ [41%N]))).
  - intros w v cs (x & t & _ & _ & ->). discriminate.
  - apply d_nodeV; [reflexivity|]. intros w v cs. split.
    + intro H. apply (@comment_sound (List.length w)) in H; [|lia]. destruct H as (x & t & c & -> & I & -> & P). exists c. split; [exists x, t; auto|exact P].
    + intros (c & (x & t & -> & I & ->) & P). apply comment_complete in I. destruct I as (vs & c' & X & J & Q). apply comment_unfold. exists x, vs, c'. rewrite J. split; [reflexivity|]. split; [exact X|]. split; [now rewrite Q|reflexivity].
  - intros w v cs. split.
    + intros (x & t & -> & I & ->). exists (VStr (40%N :: t ++ [41%N])), cs, []. split; [exists x, t; auto|]. cbn [call_func pyfun tl]. rewrite removelast_last, app_nil_r. auto.
    + intros (u & c & k & (x & t & -> & I & ->) & E & ->). cbn [call_func pyfun tl] in E. rewrite removelast_last in E. injection E as <- <-. exists x, t. rewrite app_nil_r. auto.
Qed.
Lemma comment_V : N_ comment comment_text.
Proof. apply d_nodeV; [reflexivity|apply comment_M]. Qed.

(** ** Sequences of parts *)
Lemma RWS_gap : den (A (skip RWS)) (gap white_space).
Proof.
  assert (H : N_ RWS (fun w v cs => white_space w cs /\ v = VStr w)).
  { apply n_seal; [reflexivity|]. apply n_M. apply (n_py (F := FPy PJustOneSpace) (S := plain (all1 is_ws) VStr)); [vis|apply n_text, (@textual_string1_class nested (alt SP HTAB) None (bits_of (alt SP HTAB))); [reflexivity|octet_tac]|].
    intros w v cs. unfold white_space, plain. split.
    - intros ((O & C) & ->). exists (VStr w), [], cs. split; [auto|]. split; [|reflexivity]. cbn [call_func pyfun]. destruct C as [[-> ->]|[E ->]]; [reflexivity|]. destruct (str_eqb w (s " ")) eqn:Q; [apply str_eqb_eq in Q; contradiction|reflexivity].
    - intros (u & c & k & (O & -> & ->) & E & ->). cbn [call_func pyfun] in E. injection E as <- <-. split; [|reflexivity]. split; [exact O|]. destruct (str_eqb w (s " ")) eqn:Q; [left; apply str_eqb_eq in Q; auto|right]. split; [|reflexivity]. intros ->. discriminate Q. }
  eapply den_ext; [apply d_eph; [reflexivity|]; apply d_skip, H|]. intros w ns cs. unfold rskip, gap. split.
  - intros [(n & v & (X & _) & _) ->]. auto.
  - intros [X ->]. split; [|reflexivity]. exists [VStr w], (VStr w). auto.
Qed.
Lemma each_den G g p (P : reading) : den (A g) (gap G) -> den (A p) (rnode P) -> den (A (many (seq2 g p))) (fun w ns cs => exists vs, each_after G P w vs cs /\ ns = [VList vs]).
Proof.
  intros Hg Hp. eapply den_ext; [apply d_manyA; eapply is_M_ext; [apply n_M, (seq_before Hg Hp)|intros; reflexivity]|].
  intros w ns cs. unfold rmany. split; intros (vs & X & ->); exists vs; (split; [|reflexivity]).
  - induction X as [|w ws v vs c css (g0 & u & c1 & c2 & -> & X1 & X2 & ->) _ IH]; [constructor|]. assoc. now constructor.
  - induction X as [|g0 c1 w v c2 ws vs css X1 X2 _ IH]; [constructor|]. replace (g0 ++ w ++ ws) with ((g0 ++ w) ++ ws) by now assoc. replace (c1 ++ c2 ++ css) with ((c1 ++ c2) ++ css) by now assoc.
    constructor; [|exact IH]. exists g0, w, c1, c2. auto.
Qed.
(** One part, then more. *)
Lemma modl_V x y (S : reading) (R : str -> list val -> list vcomplaint -> Prop) : visible S -> den (A x) (rnode S) -> den (A y) (fun w ns cs => exists vs, R w vs cs /\ ns = [VList vs]) ->
  N_ (modl x y) (fun w v cs => exists w1 w2 u us c1 c2, w = w1 ++ w2 /\ S w1 u c1 /\ R w2 us c2 /\ v = VList (u :: us) /\ cs = c1 ++ c2).
Proof.
  intros VS H1 H2. eapply den_ext; [unfold modl; apply applied_V, d_seq; [exact H1|exact H2]|]. apply rnode_ext. intros w v cs. unfold applied. split.
  - intros (n & c & k & (w1 & w2 & n1 & n2 & c1 & c2 & -> & -> & -> & (u & U & ->) & (us & X & ->)) & E & ->). rewrite unskip_one in E by apply (VS _ _ _ U). cbn in E. injection E as <- <-.
    exists w1, w2, u, us, c1, c2. rewrite app_nil_r. auto.
  - intros (w1 & w2 & u & us & c1 & c2 & -> & U & X & -> & ->). exists [u; VList us], (c1 ++ c2), []. split; [|split; [reflexivity|now rewrite app_nil_r]].
    exists w1, w2, [u], [VList us], c1, c2. repeat (split; [reflexivity|]). split; [exists u; split; [exact U|now rewrite unskip_one by apply (VS _ _ _ U)]|eauto].
Qed.
Lemma vis_versioned c : visible (versioned c).
Proof. intros w v cs (_ & n & _ & [(_ & ->)|(x & _ & _ & ->)]); discriminate. Qed.
Lemma program_M n : is_M (pivot_ n (modl product (many (seq2 (skip RWS) (alt product comment))))) program_text.
Proof.
  apply d_seal, n_M. eapply n_ext; [apply modl_V; [apply vis_versioned|apply n_A, product_V|apply each_den; [apply RWS_gap|apply n_A, n_alt; [apply product_V|apply comment_V]]]|].
  intros w v cs. unfold program_text. split.
  - intros (w1 & w2 & u & us & c1 & c2 & -> & X & Y & -> & ->). pose proof X as (-> & _). exists w1, w2, u, us. split; [reflexivity|]. split; [exact X|]. split; [exact Y|reflexivity].
  - intros (p & rest & u & us & -> & X & Y & ->). exists p, rest, u, us, [], cs. auto.
Qed.

(** ** Parts that may be missing *)
Lemma perhaps_V x (S : reading) : N_ x S -> N_ (maybe_ x) (perhaps S).
Proof. intro H. apply (n_maybe VNone H). Qed.
Lemma not_none_present vs : not_none vs = present vs.
Proof. unfold not_none, present. induction vs as [|v vs IH]; [reflexivity|]. cbn [filter flat_map]. rewrite IH. now destruct v. Qed.
Lemma vis_perhaps S : visible S -> visible (perhaps S).
Proof. intros H w v cs [X|(_ & -> & _)]; [now apply (H w v cs)|discriminate]. Qed.
Lemma some_V F g p G (P : reading) : (forall xs, call_func pf F [VList xs] = (VList (not_none xs), [])) -> visible P -> den (A g) (gap G) -> N_ p P ->
  N_ (wrap F (modl (maybe_ p) (many (seq2 g (maybe_ p))))) (some_parts G P).
Proof.
  intros HF VP Hg Hp. apply (n_py (F := F) (S := fun w v cs => exists w1 w2 u us c1 c2, w = w1 ++ w2 /\ perhaps P w1 u c1 /\ each_after G (perhaps P) w2 us c2 /\ v = VList (u :: us) /\ cs = c1 ++ c2)).
  - intros w v cs (w1 & w2 & u & us & c1 & c2 & _ & _ & _ & -> & _). discriminate.
  - apply modl_V; [now apply vis_perhaps|apply n_A, perhaps_V, Hp|apply each_den; [exact Hg|apply n_A, perhaps_V, Hp]].
  - intros w v cs. unfold some_parts. split.
    + intros (w1 & v1 & c1 & rest & vs & c2 & -> & X & Y & -> & ->). exists (VList (v1 :: vs)), (c1 ++ c2), []. rewrite HF, not_none_present, app_nil_r. split; [|auto]. exists w1, rest, v1, vs, c1, c2. auto.
    + intros (u0 & c & k & (w1 & w2 & u & us & c1 & c2 & -> & X & Y & -> & ->) & E & ->). rewrite HF, not_none_present in E. injection E as <- <-. rewrite app_nil_r. exists w1, u, c1, w2, us, c2. auto.
Qed.
Lemma around_gap m : forallb (fun c => negb (is_alpha c)) (s m) = true -> den (A (skip (seq2 (seq2 OWS (lit m)) OWS))) (gap (fun w cs => (exists a b, ows a /\ ows b /\ w = a ++ s m ++ b) /\ cs = [])).
Proof.
  intro Hm. eapply den_ext.
  - apply d_eph; [reflexivity|]. apply d_skip, d_seq; [apply d_eph; [reflexivity|]; apply d_seq|]; apply d_textA.
    + apply OWS_textual.
    + apply (@lit_textual nested m), Hm.
    + apply OWS_textual.
  - intros w ns cs. split.
    + intros [[n (w1 & w2 & n1 & n2 & c1 & c2 & -> & _ & -> & (w3 & w4 & n3 & n4 & c3 & c4 & -> & _ & -> & (O1 & _ & ->) & (-> & _ & ->)) & (O2 & _ & ->))] ->].
      split; [|reflexivity]. split; [|reflexivity]. exists w3, w2. rewrite <- app_assoc. auto.
    + intros (((a & b & Oa & Ob & ->) & ->) & ->). split; [|reflexivity]. exists ([VStr a; VStr (s m)] ++ [VStr b]).
      exists (a ++ s m), b, [VStr a; VStr (s m)], [VStr b], [], []. split; [now rewrite <- app_assoc|]. split; [reflexivity|]. split; [reflexivity|]. split; [|split; [exact Ob|auto]].
      exists a, (s m), [VStr a], [VStr (s m)], [], []. split; [reflexivity|]. split; [reflexivity|]. split; [reflexivity|]. split; [split; auto|split; auto].
Qed.
Lemma hsts_V : N_ directive hsts_directive.
Proof.
  apply n_seal; [reflexivity|]. apply n_M.
  eapply n_ext; [apply two_class; [| |apply n_A, n_seal; [reflexivity|]; apply n_M, n_class, token_textual|apply n_A, n_maybe; eapply seq_before; [apply (@around_gap "="); reflexivity|]; apply n_A, n_seal; [reflexivity|]; apply n_M, word_den]|].
  - vis.
  - vis; apply vis_quoted.
  - intros w v cs. unfold hsts_directive. split.
    + intros (w1 & w2 & v1 & v2 & c1 & c2 & -> & (T & -> & ->) & [(g & x & c3 & c4 & -> & ((a & b & Oa & Ob & ->) & ->) & X & ->)|(-> & -> & ->)] & -> & ->).
      * exists w1. eexists. exists v2. split; [exact T|]. split; [reflexivity|]. split; [reflexivity|]. right. exists a, b, x. split; [exact Oa|]. split; [exact Ob|]. split; [now assoc|exact X].
      * exists w1, [], VNone. rewrite app_nil_r. split; [exact T|]. split; [reflexivity|]. split; [reflexivity|]. left. auto.
    + intros (name & rest & u & T & -> & -> & [(-> & -> & ->)|(a & b & x & Oa & Ob & -> & X)]).
      * exists name, [], (named "HSTSDirective" name), VNone, [], []. split; [reflexivity|]. split; [split; auto|]. split; [right; auto|auto].
      * exists name, (a ++ 61%N :: b ++ x), (named "HSTSDirective" name), u, [], cs. split; [reflexivity|]. split; [split; auto|]. split; [|auto]. left. exists (a ++ 61%N :: b), x, [], cs. split; [now assoc|]. split; [split; [exists a, b; auto|reflexivity]|auto].
Qed.
Lemma HSTS_M : is_M Strict_Transport_Security (some_parts semicolon hsts_directive).
Proof.
  apply d_seal, n_M, some_V; [reflexivity| | |apply hsts_V].
  - intros w v cs (n & r & u & _ & _ & -> & _). discriminate.
  - eapply den_ext; [apply (@around_gap ";"); reflexivity|]. intros w ns cs. unfold gap, semicolon. split; intros ((X & Y) & Z); auto.
Qed.
Lemma forwarded_V : N_ forwarded_pair forwarded_pair_text.
Proof.
  eapply n_ext; [apply tuple_V; [| |apply n_after; [apply n_class, token_textual|reflexivity]|apply n_A, n_seal; [reflexivity|]; apply n_M, word_den]; vis; apply vis_quoted|].
  intros w v cs. unfold forwarded_pair_text. split.
  - intros (w1 & w2 & v1 & v2 & c1 & c2 & -> & (x & -> & (T & -> & ->)) & W & -> & ->). exists x, w2, v2. split; [exact T|]. split; [now assoc|]. auto.
  - intros (name & x & u & T & -> & W & ->). exists (name ++ [61%N]), x, (named "ForwardedParam" name), u, [], cs. split; [now assoc|]. split; [exists name; split; [reflexivity|split; auto]|auto].
Qed.
Lemma forwarded_M : is_M forwarded_element forwarded_text.
Proof.
  apply d_seal, n_M, some_V; [reflexivity| |apply g_mark; reflexivity|apply forwarded_V].
  intros w v cs (n & x & u & _ & _ & _ & ->). discriminate.
Qed.

(** ** Preferences *)
Lemma param_V c (no_q : bool) : N_ (parameter (if no_q then ["q"] else []) c) (fun w v cs =>
  exists name x u, token_text name /\ (no_q = true -> ~ same_text "q" name) /\ w = name ++ 61%N :: x /\ word x u cs /\ v = VTuple [named c name; u]).
Proof.
  assert (T : textual (token__excluding (if no_q then ["q"] else [])) (fun w => token_text w /\ (no_q = true -> ~ same_text "q" w))).
  { eapply textual_ext; [apply excluding_tokens; now destruct no_q|]. intro w. split; intros [T X]; (split; [exact T|]).
    - intros -> Q. apply X. exists "q". split; [now left|exact Q].
    - intros (y & I & Q). destruct no_q; [destruct I as [<-|[]]; now apply X|destruct I]. }
  eapply n_ext; [apply tuple_V; [| |apply n_after; [apply n_class, T|reflexivity]|exact (word_denA nested)]; vis; apply vis_quoted|].
  intros w v cs. split.
  - intros (w1 & w2 & v1 & v2 & c1 & c2 & -> & (x & -> & ((T1 & T2) & -> & ->)) & W & -> & ->). exists x, w2, v2. split; [exact T1|]. split; [exact T2|]. split; [now assoc|]. auto.
  - intros (name & x & u & T1 & T2 & -> & W & ->). exists (name ++ [61%N]), x, (named c name), u, [], cs. split; [now assoc|]. split; [exists name; split; [reflexivity|split; auto]|auto].
Qed.
Lemma preference_item_V head : N_ (preference_parameter head) (preference_item (if head then "Preference" else "CaseInsensitive")).
Proof.
  unfold preference_parameter. set (c := if head then "Preference" else "CaseInsensitive"). clearbody c. apply n_seal; [reflexivity|]. apply n_M.
  eapply n_py; [|apply n_alt; [apply (@param_V c false)|apply n_class, token_textual]|].
  - intros w v cs [(n & x & u & _ & _ & _ & _ & ->)|(_ & -> & _)]; discriminate.
  - intros w v cs. unfold preference_item, either, plain. split.
    + intros (name & rest & u & T & -> & -> & [(-> & -> & ->)|(x & y & -> & W & U)]).
      * exists (named c name), [], []. rewrite app_nil_r. split; [right; auto|split; reflexivity].
      * exists (VTuple [named c name; y]), cs, []. rewrite app_nil_r. split; [left; exists name, x, y; repeat (split; [easy|]); reflexivity|]. split; [|reflexivity]. cbn [call_func pyfun]. destruct (word_visible W) as [z ->]. destruct U as [[E ->]|[E ->]].
        -- injection E as ->. reflexivity.
        -- destruct z; [now destruct E|reflexivity].
    + intros (u & cc & k & [(name & x & y & T & _ & -> & W & ->)|(T & -> & ->)] & E & ->); cbn [call_func pyfun] in E; injection E as <- <-.
      * exists name, (61%N :: x). eexists. split; [exact T|]. split; [reflexivity|]. split; [reflexivity|]. right. exists x, y. rewrite app_nil_r. split; [reflexivity|]. split; [exact W|]. destruct (word_visible W) as [z ->]. destruct z; [left; auto|right; split; [discriminate|reflexivity]].
      * exists w, [], VNone. rewrite !app_nil_r. split; [exact T|]. split; [reflexivity|]. split; [reflexivity|]. left. auto.
Qed.
Lemma vis_item c : visible (preference_item c).
Proof. intros w v cs (n & r & u & _ & _ & -> & _). discriminate. Qed.
Lemma preference_M : is_M preference preference_text.
Proof.
  assert (G : den (A (skip (seq2 OWS (lit ";")))) (gap (fun g k => k = [] /\ exists a, ows a /\ g = a ++ [59%N]))).
  { eapply den_ext; [apply d_eph; [reflexivity|]; apply d_skip, d_seq; apply d_textA; [apply OWS_textual|apply (@lit_textual nested ";"); reflexivity]|]. intros w ns cs. unfold gap. split.
    - intros [[n (w1 & w2 & n1 & n2 & c1 & c2 & -> & _ & -> & (O1 & _ & ->) & (-> & _ & ->))] ->]. split; [|reflexivity]. split; [reflexivity|]. exists w1. auto.
    - intros ((-> & a & O & ->) & ->). split; [|reflexivity]. exists [VStr a; VStr (s ";")], a, (s ";"), [VStr a], [VStr (s ";")], [], []. repeat (split; [reflexivity|]). split; [split; auto|split; auto]. }
  assert (B : N_ (seq2 (skip OWS) (preference_parameter false)) (after_space (preference_item "CaseInsensitive"))).
  { eapply n_ext; [eapply seq_before; [apply g_skip, OWS_textual|apply n_A, (@preference_item_V false)]|]. intros w v cs. unfold gap_before, after_space. split.
    - intros (g & u & c1 & c2 & -> & (O & ->) & X & ->). exists g, u. auto.
    - intros (a & x & O & -> & X). exists a, x, [], cs. auto. }
  apply d_seal, n_M. eapply den_ext; [apply applied_V, d_seq; [apply n_A, (@preference_item_V true)|apply each_den; [exact G|apply n_A, perhaps_V, B]]|]. apply rnode_ext.
  intros w v cs. unfold applied, preference_text. split.
  - intros (n & c & k & (w1 & w2 & n1 & n2 & c1 & c2 & -> & -> & -> & (u & U & ->) & (us & X & ->)) & E & ->). rewrite unskip_one in E by apply (vis_item U). injection E as <- <-.
    exists w1, u, c1, w2, us, c2. rewrite app_nil_r. auto.
  - intros (w1 & u & c1 & rest & us & c2 & -> & U & X & -> & ->). exists [u; VList us], (c1 ++ c2), []. split; [|split; [reflexivity|now rewrite app_nil_r]].
    exists w1, rest, [u], [VList us], c1, c2. repeat (split; [reflexivity|]). split; [exists u; split; [exact U|now rewrite unskip_one by apply (vis_item U)]|eauto].
Qed.

(** ** Accept *)
Lemma vis_param no_q : visible (plain_param no_q).
Proof. intros w v cs (n & x & u & _ & _ & _ & _ & ->). discriminate. Qed.
Lemma media_range_V no_q : N_ (media_range no_q) (media_range_text no_q).
Proof.
  apply n_seal; [reflexivity|]. apply n_M.
  assert (T1 : textual (add (add type_ (lit "/")) (lit "*")) (fun w => exists t, token_text t /\ w = t ++ [47%N; 42%N])).
  { eapply textual_ext; [apply textual_add; [apply textual_add; [apply textual_seal; [reflexivity|apply token_textual]|apply (@lit_textual nested "/"); reflexivity]|apply (@lit_textual nested "*"); reflexivity]|].
    intro w. split.
    - intros (a & b & -> & (t & m & -> & T & ->) & ->). exists t. split; [exact T|now assoc].
    - intros (t & T & ->). exists (t ++ s "/"), (s "*"). split; [now assoc|]. split; [exists t, (s "/"); auto|reflexivity]. }
  eapply n_ext; [apply two_class; [| |apply n_A, n_alt; [apply n_alt; [apply n_text, (@lit_textual nested "*/*"); reflexivity|apply n_text, T1]|apply checked_type]|apply multidict_V, semis_den; [apply vis_param|apply n_A, (@param_V "CaseInsensitive" no_q)]]|].
  - vis. intros w v cs (_ & -> & _). discriminate.
  - intros w v cs (vs & _ & ->). discriminate.
  - assert (S : token_text [42%N]) by (split; [discriminate|repeat constructor]).
    intros w v cs. unfold media_range_text. split.
    + intros (w1 & w2 & v1 & v2 & c1 & c2 & -> & X & (ps & P & ->) & -> & ->). destruct X as [[(-> & -> & ->)|((t & T & ->) & -> & ->)]|((t & u & T & U & ->) & -> & K)].
      * exists [42%N], [42%N], w2, ps, (VStr (s "*/*")), [], c2. split; [exact S|]. split; [exact S|]. split; [reflexivity|]. split; [exact P|]. split; [reflexivity|]. split; [reflexivity|]. left. auto.
      * exists t, [42%N], w2, ps, (VStr (t ++ [47%N; 42%N])), [], c2. split; [exact T|]. split; [exact S|]. split; [now assoc|]. split; [exact P|]. split; [reflexivity|]. split; [reflexivity|]. left. auto.
      * exists t, u, w2, ps, (named "MediaType" (t ++ 47%N :: u)), c1, c2. split; [exact T|]. split; [exact U|]. split; [now assoc|]. split; [exact P|]. split; [reflexivity|]. split; [reflexivity|]. right. auto.
    + intros (t & u & rest & ps & k & c1 & c2 & T & U & -> & P & -> & -> & K). exists (t ++ 47%N :: u), rest, k, (VObj (s "MultiDict") [VList ps]), c1, c2. split; [now assoc|]. split; [|split; [eauto|auto]]. destruct K as [(-> & -> & ->)|(-> & K)].
      * left. right. split; [exists t; auto|auto].
      * right. split; [exists t, u; auto|auto].
Qed.
Lemma vis_range no_q : visible (media_range_text no_q).
Proof. intros w v cs (t & u & r & ps & k & c1 & c2 & _ & _ & _ & _ & -> & _). discriminate. Qed.
Definition extended : reading := gap_before (fun w cs => (exists a b, ows a /\ ows b /\ w = a ++ 59%N :: b) /\ cs = []) extension_text.
Lemma extension_M : is_M accept_ext extended.
Proof.
  apply d_seal. apply (is_M_ext (S := two (fun a b => VTuple [a; b]) (gap_before (fun w cs => (exists a b, ows a /\ ows b /\ w = a ++ 59%N :: b) /\ cs = []) (plain token_text VStr)) (optional (before (s "=") word) VNone))).
  - apply two_M; [vis|vis; apply vis_quoted|apply n_A, seq_before; [apply g_semi|apply n_A, n_text, token_textual]|apply n_A, n_maybe, mark_before; [reflexivity|exact (word_denA nested)]].
  - intros w v cs. unfold extended, extension_text. split.
    + intros (w1 & w2 & v1 & v2 & c1 & c2 & -> & (g & name & c3 & c4 & -> & (G & ->) & (T & -> & ->) & ->) & X & -> & ->). exists g, (name ++ w2), [], c2. split; [now assoc|]. split; [auto|]. split; [|reflexivity].
      exists name, w2, v2. split; [exact T|]. split; [reflexivity|]. split; [reflexivity|]. destruct X as [(x & -> & X)|(-> & -> & ->)]; [right; exists x; auto|left; auto].
    + intros (g & r & c1 & c2 & -> & (G & ->) & (name & rest & u & T & -> & -> & X) & ->). exists (g ++ name), rest, (VStr name), u, [], c2. split; [now assoc|]. split; [exists g, name, [], []; split; [reflexivity|]; split; [auto|]; split; [split; auto|reflexivity]|]. split; [|auto].
      destruct X as [(-> & -> & ->)|(x & -> & X)]; [right; auto|left; exists x; auto].
Qed.
Lemma extended_pieces w vs cs : pieces extended w vs cs <-> after_semicolons extension_text w vs cs.
Proof.
  split; intro X.
  - induction X as [|w ws v vs c css (g & u & c1 & c2 & -> & ((a & b & Oa & Ob & ->) & ->) & X & ->) _ IH]; [constructor|]. assoc. now constructor.
  - induction X as [|a b w v cs ws vs css Oa Ob X _ IH]; [constructor|]. replace (a ++ 59%N :: b ++ w ++ ws) with ((a ++ 59%N :: b ++ w) ++ ws) by now assoc. constructor; [|exact IH].
    exists (a ++ 59%N :: b), w, [], cs. split; [now assoc|]. split; [split; [exists a, b; auto|reflexivity]|auto].
Qed.
Lemma accept_M : is_M (wrap (class "Parametrized") (seq2 (media_range true) (maybe accept_params (VObj (s "MultiDict") [VList []])))) accept_text.
Proof.
  set (Q := fun w (cs : list vcomplaint) => (exists a b q, ows a /\ ows b /\ same_text "q" q /\ w = a ++ 59%N :: b ++ q ++ [61%N]) /\ cs = []).
  assert (W : N_ weight (gap_before Q (plain quality VFloat))).
  { apply n_seal; [reflexivity|]. apply n_M. apply seq_before; [apply q_gap|]. apply n_A, quality_V. }
  assert (P : N_ accept_params (fun w v cs => exists g x more ps c1, Q g c1 /\ quality x /\ w = g ++ x ++ more /\ after_semicolons extension_text more ps cs /\ v = VObj (s "MultiDict") [VList (VTuple [named "CaseInsensitive" (s "q"); VFloat x] :: ps)])).
  { apply n_seal; [reflexivity|]. apply n_M. eapply den_ext; [apply applied_V, d_seq; [apply n_A, W|apply d_manyA, extension_M]|]. apply rnode_ext. intros w v cs. unfold applied. split.
    - intros (n & c & k & (w1 & w2 & n1 & n2 & c1 & c2 & -> & -> & -> & (u & (g & x & d1 & d2 & -> & G & (X & -> & ->) & ->) & ->) & (us & Y & ->)) & E & ->). cbn in E. injection E as <- <-. pose proof G as (_ & ->). rewrite !app_nil_r. cbn [app].
      exists g, x, w2, us, []. split; [exact G|]. split; [exact X|]. split; [now assoc|]. split; [now apply extended_pieces|reflexivity].
    - intros (g & x & more & ps & c1 & G & X & -> & Y & ->). pose proof G as (_ & ->). exists [VFloat x; VList ps], cs, []. split; [|split; [reflexivity|now rewrite app_nil_r]]. exists (g ++ x), more, [VFloat x], [VList ps], [], cs. split; [now assoc|]. split; [reflexivity|]. split; [reflexivity|].
      split; [exists (VFloat x); split; [exists g, x, [], []; split; [reflexivity|]; split; [exact G|]; split; [split; auto|reflexivity]|reflexivity]|]. exists ps. split; [now apply extended_pieces|reflexivity]. }
  apply n_M. eapply n_ext; [apply two_class; [apply (@vis_range true)| |apply n_A, media_range_V|apply n_A, (n_maybe (VObj (s "MultiDict") [VList []]) P)]|].
  - intros w v cs [(g & x & more & ps & c1 & _ & _ & _ & _ & ->)|(_ & -> & _)]; discriminate.
  - intros w v cs. unfold accept_text. split.
    + intros (w1 & w2 & v1 & v2 & c1 & c2 & -> & X & [(g & x & more & ps & d & ((a & b & q & Oa & Ob & Hq & ->) & ->) & Hx & -> & Y & ->)|(-> & -> & ->)] & -> & ->).
      * exists w1. eexists. exists v1. eexists. exists c1, c2. split; [exact X|]. split; [reflexivity|]. split; [reflexivity|]. split; [reflexivity|]. right. exists a, b, q, x, more, ps. repeat (split; [assumption|]). split; [now assoc|]. split; [exact Y|reflexivity].
      * exists w1, [], v1, [], c1, []. repeat (split; [easy|]). left. auto.
    + intros (x & rest & u & k & c1 & c2 & X & -> & -> & -> & [(-> & -> & ->)|(a & b & q & qv & more & ps & Oa & Ob & Hq & Hv & -> & Y & ->)]).
      * exists x, [], u, (VObj (s "MultiDict") [VList []]), c1, []. repeat (split; [easy|]). split; [right; auto|auto].
      * exists x, (a ++ 59%N :: b ++ q ++ 61%N :: qv ++ more), u. eexists. exists c1, c2. split; [reflexivity|]. split; [exact X|]. split; [|auto]. left. exists (a ++ 59%N :: b ++ q ++ [61%N]), qv, more, ps, [].
        split; [split; [exists a, b, q; auto|reflexivity]|]. split; [exact Hv|]. split; [now assoc|]. split; [exact Y|reflexivity].
Qed.

(** ** Accept-Language *)
Lemma alphanum_bits c : N.testbit (bits_of alphanum_4647) c = is_alpha c || is_digit c.
Proof. revert c. octet_tac. Qed.
Lemma alpha_bits c : N.testbit (bits_of ALPHA) c = is_alpha c.
Proof. revert c. octet_tac. Qed.
Lemma subtag_textual x n b p : x = Term n b -> (forall c, N.testbit b c = p c) -> textual (string_times_ 1 8 x) (subtag p).
Proof.
  intros -> B. unfold string_times_. eapply textual_ext; [apply textual_string_times; [apply (@textual_class nested (Term n b) n b p eq_refl B)|discriminate|lia]|].
  intro w. unfold subtag. split.
  - intros (k & [K1 K2] & P). apply pow_class in P. destruct P as [<- P]. auto.
  - intros [P [L1 L2]]. exists (List.length w). split; [split; [lia|exact L2]|]. apply pow_class. auto.
Qed.
Lemma language_V : N_ language_range language_range_text.
Proof.
  apply n_seal; [reflexivity|]. apply n_M.
  eapply n_ext; [apply n_class, textual_alt; [apply textual_add; [apply (@subtag_textual ALPHA (Some (s "ALPHA")) (bits_of ALPHA)); [reflexivity|apply alpha_bits]|apply textual_string, textual_add; [apply (@lit_textual nested "-"); reflexivity|apply (@subtag_textual alphanum_4647 (Some (s "alphanum")) (bits_of alphanum_4647)); [reflexivity|apply alphanum_bits]]]|apply (@lit_textual nested "*"); reflexivity]|].
  assert (X : forall w, (exists n, pow n (fun w => exists a b, w = a ++ b /\ a = s "-" /\ subtag (fun c => is_alpha c || is_digit c) b) w) <-> exists ys, Forall (subtag (fun c => is_alpha c || is_digit c)) ys /\ w = flat_map (fun y => 45%N :: y) ys).
  { intro w. split.
    - intros [n H]. revert w H. induction n as [|n IH]; intros w H; cbn [pow] in H; [exists []; split; [constructor|exact H]|]. destruct H as (w1 & w2 & -> & (a & b & -> & -> & B) & H2). destruct (IH _ H2) as (ys & F & ->). exists (b :: ys). split; [now constructor|reflexivity].
    - intros (ys & F & ->). exists (List.length ys). induction F as [|y ys Y F IH]; [reflexivity|]. cbn [flat_map List.length pow]. exists (45%N :: y), (flat_map (fun y => 45%N :: y) ys). split; [reflexivity|]. split; [|exact IH]. exists (s "-"), y. auto. }
  intros w v cs. unfold plain, language_range_text. split.
  - intros ([(x & r & -> & T & R)| ->] & -> & ->); (split; [reflexivity|]); (split; [reflexivity|]); [right|now left]. apply X in R. destruct R as (ys & F & ->). exists x, ys. auto.
  - intros (-> & -> & [->|(x & ys & T & F & ->)]); (split; [|auto]); [right; reflexivity|left]. exists x. eexists. split; [reflexivity|]. split; [exact T|]. apply X. eauto.
Qed.
Lemma Accept_Language_item : is_M (wrap (class "Parametrized") (seq2 language_range (maybe_ weight))) (weighted language_range_text).
Proof. apply n_M, weighted_V; [intros w v cs (-> & _); discriminate|apply n_A, language_V|apply quality_V]. Qed.
End Agents.
