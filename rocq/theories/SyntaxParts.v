(** What symbols with parts mean: media types and others. *)
From Coq Require Import ZifyBool ZifyNat ZifyN Permutation String.
From Verif Require Import Base Earley EarleySpec Parse Grammar GrammarSem GrammarLang GrammarWF GrammarVals GrammarExcl GrammarCalc
  Syntax Actions Reading HttpText HttpValues SyntaxVals SyntaxDen.
Open Scope nat_scope.
Open Scope list_scope.
Unset Strict Implicit.
Local Open Scope string_scope.
Local Open Scope list_scope.

Section Parts.
Variable nested : pyf -> list val -> val * list vcomplaint.
Notation pf := (pyfun nested).
Notation textual := (textual rec_rules pf).
Notation M := (M rec_rules pf).
Notation V := (V rec_rules pf).
Notation A := (A rec_rules pf).
Notation is_M := (is_M nested).

Lemma unskip_one v : v <> VSkip -> unskip v = [v].
Proof. now destruct v. Qed.
Lemma collapse_unskip v : collapse (unskip v) = v.
Proof. now destruct v. Qed.

Lemma semi_den : den (A (skip (seq2 (seq2 OWS (lit ";")) OWS))) (fun w ns cs => exists a b, ows a /\ ows b /\ w = a ++ 59%N :: b /\ ns = [] /\ cs = []).
Proof.
  eapply den_ext.
  - apply d_eph; [reflexivity|]. apply d_skip, d_seq; [apply d_eph; [reflexivity|]; apply d_seq|]; apply d_textA.
    + apply OWS_textual.
    + apply (@lit_textual nested ";"). reflexivity.
    + apply OWS_textual.
  - intros w ns cs. split.
    + intros [[n (w1 & w2 & n1 & n2 & c1 & c2 & -> & _ & -> & (w3 & w4 & n3 & n4 & c3 & c4 & -> & _ & -> & (O1 & _ & ->) & (-> & _ & ->)) & (O2 & _ & ->))] ->].
      exists w3, w2. rewrite <- app_assoc. auto.
    + intros (a & b & Oa & Ob & -> & -> & ->). split; [|reflexivity]. exists ([VStr a; VStr (s ";")] ++ [VStr b]).
      exists (a ++ s ";"), b, [VStr a; VStr (s ";")], [VStr b], [], []. rewrite <- app_assoc. repeat split; try exact Ob.
      exists a, (s ";"), [VStr a], [VStr (s ";")], [], []. repeat split; auto.
Qed.
(** Parts after semicolons. *)
Lemma semis_den p (P : reading) : (forall w v cs, P w v cs -> v <> VSkip) -> den (A p) (rnode P) ->
  den (A (many (seq2 (skip (seq2 (seq2 OWS (lit ";")) OWS)) p))) (fun w ns cs => exists vs, after_semicolons P w vs cs /\ ns = [VList vs]).
Proof.
  intros N H. eapply den_ext; [apply d_manyA, d_M, d_seq; [apply semi_den|exact H]|]. intros w ns cs. unfold rmany.
  split; intros [vs [X ->]]; exists vs; (split; [|reflexivity]).
  - induction X as [|w ws v vs c css X _ IH]; [constructor|].
    destruct X as (n & (w1 & w2 & n1 & n2 & c1 & c2 & -> & -> & -> & (a & b & Oa & Ob & -> & -> & ->) & (u & U & ->)) & ->).
    cbn [app]. rewrite collapse_unskip. repeat (rewrite <- app_assoc; cbn [app]). now constructor.
  - induction X as [|a b w v cs ws vs css Oa Ob X _ IH]; [constructor|].
    replace (a ++ 59%N :: b ++ w ++ ws) with ((a ++ 59%N :: b ++ w) ++ ws) by (rewrite <- app_assoc; cbn [app]; now rewrite <- app_assoc).
    constructor; [|exact IH]. exists ([] ++ unskip v). split; [|cbn [app]; now rewrite collapse_unskip].
    exists (a ++ 59%N :: b), w, [], (unskip v), [], cs. rewrite <- app_assoc. repeat split; [|exists v; auto]. exists a, b. auto.
Qed.

(** ** Words *)
Lemma quoted_M : is_M quoted_string quoted_text.
Proof.
  intros w v cs. rewrite quoted_string_M. unfold quoted_spec, quoted_text, escapes, quoted_complaint.
  assert (E : forall q, filter (fun c => negb (HttpText.among (s """\") c)) q = filter (fun c => negb (N.eqb c 34 || N.eqb c 92)) q).
  { intro q. apply filter_ext. intro c. unfold HttpText.among. cbn -[N.eqb]. now rewrite orb_false_r. }
  split; intros [cs' [[x [t [q [-> [U [-> ->]]]]]] P]]; eexists; (split; [exists x, t, q; split; [reflexivity|]; split; [exact U|]; split; reflexivity|]); rewrite ?E in *; exact P.
Qed.
Lemma quoted_visible w v cs : quoted_text w v cs -> exists x, v = VStr x.
Proof. intros (x & t & q & _ & _ & -> & _). eauto. Qed.
Lemma word_visible w v cs : word w v cs -> exists x, v = VStr x.
Proof. intros [(_ & -> & _)|H]; [eauto|now apply quoted_visible in H]. Qed.
Lemma word_den : den (V (alt token quoted_string)) (rnode word).
Proof.
  eapply den_ext; [apply d_alt; [apply d_text, token_textual|apply d_nodeV; [reflexivity|apply quoted_M]]|]. intros w ns cs. unfold ralt, rtext, rnode, word, token_text. split.
  - intros [(T & -> & ->)|(v & Q & ->)]; [exists (VStr w); auto 6|exists v; auto].
  - intros (v & [(T & -> & ->)|Q] & ->); [left; auto|right; eauto].
Qed.
Lemma word_denA : den (A (alt token quoted_string)) (rnode word).
Proof.
  eapply den_ext; [apply d_closed; [reflexivity|exact word_den]|]. intros w ns cs. unfold rnode. split.
  - intros (v & (n & (u & U & ->) & ->) & ->). exists u. now rewrite collapse_unskip.
  - intros (v & U & ->). exists v. split; [|reflexivity]. exists (unskip v). rewrite collapse_unskip. eauto.
Qed.

(** A class around a text. *)
Lemma class_M c x L : textual x L -> is_M (wrap (class c) x) (fun w v cs => L w /\ v = named c w /\ cs = []).
Proof.
  intro T. eapply is_M_ext; [apply d_M, d_wrap, d_text, T|]. intros w v cs. split.
  - intros (ns & (n & k & u & k' & (Lw & -> & ->) & E & -> & ->) & ->). injection E as <- <-. rewrite collapse_unskip. auto.
  - intros (Lw & -> & ->). exists (unskip (named c w)). split; [|reflexivity]. exists [VStr w], [], (named c w), []. repeat split; auto.
Qed.

(** ** Generalities *)
Lemma node_A x S : den (V x) (rnode S) -> den (A x) (rnode S).
Proof.
  intro H. destruct (eph1 x) eqn:E; [now apply d_eph|]. eapply den_ext; [exact (d_closed E H)|]. intros w ns cs. unfold rnode. split.
  - intros (v & (n & (u & U & ->) & ->) & ->). exists u. now rewrite collapse_unskip.
  - intros (v & U & ->). exists v. split; [|reflexivity]. exists (unskip v). rewrite collapse_unskip. eauto.
Qed.
Lemma node_M x S : den (V x) (rnode S) -> is_M x S.
Proof.
  intro H. eapply is_M_ext; [exact (d_M H)|]. intros w v cs. unfold rnode. split.
  - intros (n & (u & U & ->) & ->). now rewrite collapse_unskip.
  - intro U. exists (unskip v). rewrite collapse_unskip. eauto.
Qed.
(** What a function makes of the values. *)
Definition applied (F : func) (R : relation) : reading := fun w v cs => exists n c k, R w n c /\ call_func pf F n = (v, k) /\ cs = c ++ k.
Lemma applied_V F x R : den (V x) R -> den (V (wrap F x)) (rnode (applied F R)).
Proof.
  intro H. eapply den_ext; [exact (d_wrap F H)|]. intros w ns cs. unfold rwrap, rnode, applied. split.
  - intros (n & c & v & k & X & Y & -> & ->). exists v. split; [|reflexivity]. eauto 6.
  - intros (v & (n & c & k & X & Y & ->) & ->). eauto 8.
Qed.
Lemma rnode_ext S S' : (forall w v cs, S w v cs <-> S' w v cs) -> forall w ns cs, rnode S w ns cs <-> rnode S' w ns cs.
Proof. intros E w ns cs. unfold rnode. split; intros [v [X ->]]; exists v; (split; [now apply E|reflexivity]). Qed.
Lemma seal_V n p x S : not_forced x = true -> is_M x S -> den (V (seal n p x)) (rnode S).
Proof. intros NF H. apply d_nodeV; [now apply eph_seal|now apply d_seal]. Qed.
Lemma class_V c x L : textual x L -> den (V (wrap (class c) x)) (rnode (fun w v cs => L w /\ v = named c w /\ cs = [])).
Proof.
  intro T. eapply den_ext; [apply applied_V, d_text, T|]. apply rnode_ext. intros w v cs. unfold applied, rtext. split.
  - intros (n & c' & k & (Lw & -> & ->) & E & ->). injection E as <- <-. auto.
  - intros (Lw & -> & ->). exists [VStr w], [], []. auto.
Qed.
(** A fixed punctuation that is left out. *)
Lemma mark_A x : forallb (fun c => negb (is_alpha c)) (s x) = true -> den (A (skip (lit x))) (fun w ns cs => w = s x /\ ns = [] /\ cs = []).
Proof.
  intro E. intros w ns cs. rewrite (A_skip (lit_textual nested E)). split.
  - intros (-> & -> & ->). exists []. auto.
  - intros (c & (-> & -> & ->) & P). apply Permutation_nil in P. auto.
Qed.

Lemma same_text_lower x w : same_text x w <-> map lower_c (s x) = map lower_c w.
Proof.
  assert (L : forall c d, (c = d \/ is_alpha c = true /\ is_alpha d = true /\ (c = d + 32 \/ d = c + 32)%N) <-> lower_c c = lower_c d).
  { intros c d. unfold lower_c, is_alpha. destruct ((65 <=? d) && (d <=? 90))%N eqn:E1, ((65 <=? c) && (c <=? 90))%N eqn:E2; lia. }
  unfold same_text. generalize (s x) as u. clear x. intro u. revert w. induction u as [|c u IH]; intros [|d w]; cbn [map]; split; intro H; try discriminate; try (inversion H; fail); try constructor.
  - inversion H as [|? ? ? ? H1 H2]; subst. apply IH in H2. apply L in H1. congruence.
  - apply L. congruence.
  - apply IH. congruence.
Qed.
Lemma excluding_tokens exclude : forallb (fun x => forallb is_tchar (s x)) exclude = true ->
  textual (token__excluding exclude) (fun w => token_text w /\ ~ exists x, In x exclude /\ same_text x w).
Proof.
  intro H. eapply textual_ext; [apply (@string_excluding_textual rec_rules pf (Some (s "tchar")) (bits_of tchar) ([] :: map s exclude))|].
  - intros x c [<-|I] Ic; [destruct Ic|]. apply in_map_iff in I. destruct I as (y & <- & I). rewrite forallb_forall in H. specialize (H y I). rewrite forallb_forall in H. specialize (H c Ic).
    rewrite !tchar_bits. unfold is_tchar in *. set (g := HttpText.among _) in *. clearbody g. unfold is_digit, is_alpha, lower_c, upper_c in *.
    destruct ((65 <=? c) && (c <=? 90))%N eqn:E1; destruct ((97 <=? c) && (c <=? 122))%N eqn:E2; split; try exact H; rewrite !orb_true_iff, !andb_true_iff, !N.leb_le; lia.
  - intro w. unfold excluding_lang, all_in, token_text, all1, HttpText.all. assert (K : Forall (fun c => N.testbit (bits_of tchar) c = true) w <-> Forall (fun c => is_tchar c = true) w) by (split; apply Forall_impl; intros c; now rewrite tchar_bits). rewrite K. split.
    + intros [F N]. split; [split; [|exact F]|].
      * intros ->. apply (N []); [now left|reflexivity].
      * intros (x & I & S). apply (N (s x)); [right; now apply in_map|now apply same_text_lower].
    + intros [[Nw F] N]. split; [exact F|]. intros x [<-|I] E; [destruct w; [congruence|discriminate]|]. apply in_map_iff in I. destruct I as (y & <- & I). apply N. exists y. split; [exact I|now apply same_text_lower].
Qed.

(** ** Parameters *)
Lemma parameter_den c : den (A (parameter [] c)) (rnode (param c)).
Proof.
  apply node_A, seal_V; [reflexivity|].
  eapply is_M_ext; [apply d_M, d_seq; [apply d_eph; [reflexivity|]; apply d_seq; [apply node_A, class_V, (@excluding_tokens []); reflexivity|apply (@mark_A "="); reflexivity]|exact word_denA]|].
  intros w v cs. split.
  - intros (ns & (w1 & w2 & n1 & n2 & c1 & c2 & -> & -> & -> & (w3 & w4 & n3 & n4 & c3 & c4 & -> & -> & -> & (u & ([T _] & -> & ->) & ->) & (-> & -> & ->)) & (y & Y & ->)) & ->).
    exists w3, w2, y. split; [exact T|]. split; [now rewrite <- app_assoc|]. split; [exact Y|]. destruct (word_visible Y) as [z ->]. reflexivity.
  - intros (name & x & u & T & -> & Y & ->). exists ([named c name] ++ [u]). split; [|destruct (word_visible Y) as [z ->]; reflexivity].
    exists (name ++ s "="), x, [named c name], [u], [], cs. rewrite <- app_assoc. repeat split; [|exists u; split; [exact Y|destruct (word_visible Y) as [z ->]; reflexivity]].
    exists name, (s "="), [named c name], [], [], []. repeat split. exists (named c name). split; [|reflexivity]. split; [|auto]. split; [exact T|]. intros (z & Z & _). exact Z.
Qed.
Lemma param_visible c w v cs : param c w v cs -> v <> VSkip.
Proof. now intros (n & x & u & _ & _ & _ & ->). Qed.
Lemma multidict_V x (P : str -> list val -> list vcomplaint -> Prop) : den (A (many x)) (fun w ns cs => exists vs, P w vs cs /\ ns = [VList vs]) ->
  den (A (wrap (class "MultiDict") (many x))) (rnode (fun w v cs => exists vs, P w vs cs /\ v = VObj (s "MultiDict") [VList vs])).
Proof.
  intro H. apply node_A. assert (H' : den (V (many x)) (fun w ns cs => exists vs, P w vs cs /\ ns = [VList vs])).
  { intros w ns cs. rewrite <- (H w ns cs). now rewrite V_many, A_many. }
  eapply den_ext; [apply applied_V, H'|]. apply rnode_ext. intros w v cs. unfold applied. split.
  - intros (n & c & k & (vs & X & ->) & E & ->). injection E as <- <-. rewrite app_nil_r. eauto.
  - intros (vs & X & ->). exists [VList vs], cs, []. rewrite app_nil_r. repeat split. eauto.
Qed.

(** ** Media types *)
Lemma mistaken_spec x : exists cs, mistaken x cs /\ check_media_type (named "MediaType" x) = (named "MediaType" x, cs) /\ forall cs', mistaken x cs' -> cs' = cs.
Proof.
  assert (F : forall p, In p bad_media_types <-> exists b g, In (b, g) mistaken_types /\ p = (s b, s g)).
  { intro p. unfold bad_media_types, mistaken_types. cbn [In]. split.
    - intros [<-|[<-|[<-|[]]]]; do 2 eexists; (split; [|reflexivity]); auto.
    - intros (b & g & [E|[E|[E|[]]]] & ->); injection E as <- <-; auto. }
  assert (L : forall b g, In (b, g) mistaken_types -> map lower_c (s b) = s b) by (intros b g [E|[E|[E|[]]]]; injection E as <- <-; reflexivity).
  assert (U : forall b g b' g', In (b, g) mistaken_types -> In (b', g') mistaken_types -> s b = s b' -> g = g').
  { intros b g b' g' [E|[E|[E|[]]]] [E'|[E'|[E'|[]]]]; injection E as <- <-; injection E' as <- <-; intro Q; try reflexivity; discriminate Q. }
  unfold check_media_type, named. destruct (find _ bad_media_types) as [[b g]|] eqn:Q.
  - apply find_some in Q. destruct Q as [I Q]. apply F in I. destruct I as (b' & g' & I & E). injection E as -> ->. cbn [fst] in Q. apply str_eqb_eq in Q.
    assert (S : same_text b' x) by (apply same_text_lower; rewrite (L _ _ I); exact Q). cbn [snd]. eexists. split; [left; exists b', g'; split; [exact I|]; split; [exact S|reflexivity]|]. split; [reflexivity|].
    intros cs' [(b2 & g2 & I2 & S2 & ->)|[N _]]; [|destruct N; eauto]. apply same_text_lower in S2. rewrite (L _ _ I2) in S2. rewrite (U _ _ _ _ I2 I); [reflexivity|congruence].
  - assert (N : ~ exists b g, In (b, g) mistaken_types /\ same_text b x).
    { intros (b & g & I & S). apply same_text_lower in S. rewrite (L _ _ I) in S. assert (J : In (s b, s g) bad_media_types) by (apply F; eauto). pose proof (find_none _ _ Q _ J) as K. cbn [fst] in K.
      rewrite S, str_eqb_refl in K. discriminate K. }
    exists []. split; [now right|]. split; [reflexivity|]. intros cs' [(b & g & I & S & _)|[_ ->]]; [destruct N; eauto|reflexivity].
Qed.
Lemma type_textual : textual (add (add type_ (lit "/")) subtype) (fun w => exists t u, token_text t /\ token_text u /\ w = t ++ 47%N :: u).
Proof.
  eapply textual_ext; [apply textual_add; [apply textual_add|]|].
  - apply textual_seal; [reflexivity|apply token_textual].
  - apply (@lit_textual nested "/"). reflexivity.
  - apply textual_seal; [reflexivity|apply token_textual].
  - intro w. split.
    + intros (a & b & -> & (c & d & -> & C & ->) & B). exists c, b. rewrite <- app_assoc. auto.
    + intros (t & u & T & U & ->). exists (t ++ s "/"), u. split; [now rewrite <- app_assoc|]. split; [|exact U]. exists t, (s "/"). auto.
Qed.
Lemma checked_type : den (V (wrap (FPy PCheckMediaType) (wrap (class "MediaType") (add (add type_ (lit "/")) subtype))))
  (rnode (fun w v cs => (exists t u, token_text t /\ token_text u /\ w = t ++ 47%N :: u) /\ v = named "MediaType" w /\ mistaken w cs)).
Proof.
  eapply den_ext; [apply applied_V, class_V, type_textual|]. apply rnode_ext. intros w v cs. unfold applied, rnode. destruct (mistaken_spec w) as (d & D & E & U). split.
  - intros (n & c & k & (y & (T & -> & ->) & ->) & Q & ->). split; [exact T|]. change (check_media_type (named "MediaType" w) = (v, k)) in Q. rewrite E in Q. injection Q as <- <-. auto.
  - intros (T & -> & X). exists [named "MediaType" w], [], cs. split; [exists (named "MediaType" w); auto|]. split; [|reflexivity]. change (check_media_type (named "MediaType" w) = (named "MediaType" w, cs)). rewrite (U _ X). exact E.
Qed.
Lemma media_type_M : is_M media_type media_type_text.
Proof.
  apply d_seal.
  eapply is_M_ext; [apply node_M, applied_V, d_seq; [apply node_A, checked_type|apply multidict_V, semis_den; [apply param_visible|apply parameter_den]]|].
  intros w v cs. split.
  - intros (n & c & k & (w1 & w2 & n1 & n2 & c1 & c2 & -> & -> & -> & (y & ((t & u & T & U & ->) & -> & X) & ->) & (z & (vs & Z & ->) & ->)) & E & ->). injection E as <- <-.
    exists t, u, w2, vs, c1, c2. rewrite <- app_assoc, app_nil_r. repeat split; auto; try apply T; try apply U.
  - intros (t & u & rest & ps & cs1 & cs2 & T & U & -> & Z & -> & X & ->). exists ([named "MediaType" (t ++ 47%N :: u)] ++ [VObj (s "MultiDict") [VList ps]]), (cs1 ++ cs2), []. rewrite app_nil_r. split; [|split; reflexivity].
    exists (t ++ 47%N :: u), rest, [named "MediaType" (t ++ 47%N :: u)], [VObj (s "MultiDict") [VList ps]], cs1, cs2. split; [now rewrite <- app_assoc|]. repeat split.
    + exists (named "MediaType" (t ++ 47%N :: u)). split; [|reflexivity]. eauto 8.
    + exists (VObj (s "MultiDict") [VList ps]). split; [|reflexivity]. eauto.
Qed.
End Parts.
