(** C105 to C108: arguments of directives, Alt-Svc, Link, and all headers.  The
    specifications are in HttpValues.v, UriText.v, MoreValues.v and
    AgainValues.v. *)
From Coq Require Import ZifyBool ZifyNat ZifyN Permutation ConstructiveEpsilon String.
From Verif Require Import Base Earley EarleySpec Parse Grammar GrammarSem GrammarLang GrammarWF GrammarVals GrammarCalc
  Syntax Actions Nested Known Reading HttpText HttpDate P_Earley SyntaxTags SyntaxDates P_Grammar HttpValues SyntaxVals SyntaxDen SyntaxParts SyntaxKit SyntaxMore SyntaxFields SyntaxAgents P_Syntax P_Fields UriText SyntaxUri P_Uri MoreValues SyntaxLang SyntaxExt SyntaxRest P_More P_Types AgainValues SyntaxAgain.
Open Scope nat_scope.
Open Scope list_scope.
Unset Strict Implicit.
Local Open Scope string_scope.
Local Open Scope list_scope.

(** Names and what their values are, and what is known about the names. *)
Definition all_covered {A} (key : A -> str) (syntax : A -> option symbol) (R : symbol -> reading -> Prop) (table : list A) (readings : list (string * reading)) : Prop :=
  (forall i x, In i table -> syntax i = Some x -> exists name S, In (name, S) readings /\ key i = s name /\ R x S) /\
  (forall name S, In (name, S) readings -> exists i x, In i table /\ key i = s name /\ syntax i = Some x /\ R x S).
Lemma covered A key syntax (R : symbol -> reading -> Prop) (table : list A) (l : list (string * symbol)) readings :
  map (fun i => (key i, syntax i)) (filter (fun i => match syntax i with Some _ => true | None => false end) table) = map (fun p => (s (fst p), Some (snd p))) l ->
  Forall2 (fun p q => fst p = fst q /\ R (snd p) (snd q)) l readings -> all_covered key syntax R table readings.
Proof.
  intros E F. split.
  - intros i x I X. assert (J : In (key i, Some x) (map (fun p => (s (fst p), Some (snd p))) l)).
    { rewrite <- E. apply in_map_iff. exists i. split; [now rewrite X|]. apply filter_In. split; [exact I|now rewrite X]. }
    apply in_map_iff in J. destruct J as ([n y] & J & K). cbn [fst snd] in J. assert (y = x) as -> by congruence. assert (Y : s n = key i) by congruence. clear E J.
    induction F as [|p q l readings (H1 & H2) F IH]; [destruct K|]. destruct K as [->|K].
    + destruct q as [m S]. cbn [fst snd] in *. subst m. exists n, S. split; [now left|]. auto.
    + destruct (IH K) as (name & S & J & H). exists name, S. split; [now right|exact H].
  - intros name S J. assert (K : exists x, In (name, x) l /\ R x S).
    { clear E. induction F as [|[n x] [m T] l readings (H1 & H2) F IH]; [destruct J|]. cbn [fst snd] in *. destruct J as [J|J].
      - injection J as -> ->. subst n. exists x. split; [now left|exact H2].
      - destruct (IH J) as (y & K & H). exists y. split; [now right|exact H]. }
    destruct K as (x & K & H). assert (J' : In (s name, Some x) (map (fun p => (s (fst p), Some (snd p))) l)) by (apply in_map_iff; exists (name, x); auto).
    rewrite <- E in J'. apply in_map_iff in J'. destruct J' as (i & Q & I). apply filter_In in I. destruct I as [I _]. exists i, x. split; [exact I|]. split; [congruence|]. split; [congruence|exact H].
Qed.

(** ** C105: arguments *)

Definition one_of_words (l : list string) : reading := fun w v cs => (exists x, In x l /\ same_text x w) /\ v = named "CaseInsensitive" w /\ cs = [].
Definition field_names : reading := list_spec (named_token "FieldName") list_shape.
(** RFC 7234 5.2, RFC 5861, RFC 6797 6.1, RFC 7838 3.1, RFC 7240 4, RFC 7239 5. *)
Definition argument_readings : list (list arg_info * list (string * reading)) := [
  (cache_directive_table, [("max-age", number_text); ("max-stale", number_text); ("min-fresh", number_text); ("no-cache", field_names); ("private", field_names);
    ("s-maxage", number_text); ("stale-if-error", number_text); ("stale-while-revalidate", number_text)]);
  (hsts_directive_table, [("max-age", number_text)]);
  (alt_svc_param_table, [("ma", number_text); ("persist", fun w v cs => w = s "1" /\ v = VBool true /\ cs = [])]);
  (preference_table, [("handling", one_of_words ["strict"; "lenient"]); ("return", one_of_words ["representation"; "minimal"]); ("wait", number_text)]);
  (forwarded_param_table, [("by", node_text); ("for", node_text); ("host", as_text host_and_port); ("proto", as_text scheme_text)])].

Lemma digits_read n p : reads_as (seal n p (wrap FInt (string1 DIGIT))) number_text.
Proof. apply read_M; [reflexivity|]. intro nested. apply d_seal, n_M, n_digits. Qed.
Lemma digits_read2 n p m q : reads_as (seal n p (seal m q (wrap FInt (string1 DIGIT)))) number_text.
Proof. apply read_M; [reflexivity|]. intro nested. apply d_seal, n_M, n_seal; [reflexivity|]. apply n_M, n_digits. Qed.
Lemma words_read n p a b : is_proper (seal n p (wrap (class "CaseInsensitive") (alt (literal (s a)) (lit b)))) -> 
  reads_as (seal n p (wrap (class "CaseInsensitive") (alt (literal (s a)) (lit b)))) (one_of_words [a; b]).
Proof.
  intro P. apply read_M; [exact P|]. intro nested. apply d_seal, n_M. eapply n_ext; [apply n_class, textual_alt; apply same_textual|].
  intros w v cs. unfold plain, one_of_words. cbn [In]. split.
  - intros ([H|H] & -> & ->); (split; [|auto]); [exists a|exists b]; auto.
  - intros ((x & [<-|[<-|[]]] & H) & -> & ->); auto.
Qed.
Lemma names_read n : is_proper (seal n true (comma_list field_name)) -> reads_as (seal n true (comma_list field_name)) field_names.
Proof.
  apply (@list_reads n true field_name (named_token "FieldName")); [reflexivity| |intros w v cs (_ & -> & _); split; discriminate].
  intro nested. apply d_seal, n_M, n_class, token_textual.
Qed.
Theorem C105_arguments : forall table readings, In (table, readings) argument_readings -> all_covered ak_key ak_syntax reads_as table readings.
Proof.
  destruct C96_hosts as (_ & _ & _ & _ & R1). destruct C104_nodes_and_relations as (R2 & _).
  intros table readings H. unfold argument_readings in H. repeat match type of H with In _ (_ :: _) => destruct H as [H|H]; [injection H as <- <-|] end; [..|destruct H].
  - apply (@covered _ ak_key ak_syntax reads_as cache_directive_table [("max-age", delta_seconds); ("max-stale", delta_seconds); ("min-fresh", delta_seconds); ("no-cache", no_cache); ("private", private);
      ("s-maxage", delta_seconds); ("stale-if-error", delta_seconds); ("stale-while-revalidate", delta_seconds)]); [reflexivity|].
    repeat (constructor; [split; [reflexivity|]; first [apply digits_read|apply names_read; reflexivity]|]). constructor.
  - apply (@covered _ ak_key ak_syntax reads_as hsts_directive_table [("max-age", max_age_value)]); [reflexivity|]. constructor; [split; [reflexivity|apply digits_read]|constructor].
  - apply (@covered _ ak_key ak_syntax reads_as alt_svc_param_table [("ma", ma); ("persist", persist)]); [reflexivity|]. constructor; [split; [reflexivity|apply digits_read2]|]. constructor; [split; [reflexivity|]|constructor].
    cbn [snd]. apply read_M; [reflexivity|]. intro nested. apply d_seal, n_M. eapply n_ext; [apply n_subst, (@lit_textual nested "1"); reflexivity|]. intros w v cs. unfold plain. tauto.
  - apply (@covered _ ak_key ak_syntax reads_as preference_table [("handling", handling); ("return", return_); ("wait", wait)]); [reflexivity|].
    constructor; [split; [reflexivity|apply words_read; reflexivity]|]. constructor; [split; [reflexivity|apply words_read; reflexivity]|]. constructor; [split; [reflexivity|apply digits_read2]|constructor].
  - apply (@covered _ ak_key ak_syntax reads_as forwarded_param_table [("by", node_7239); ("for", node_7239); ("host", Host); ("proto", scheme)]); [reflexivity|].
    constructor; [split; [reflexivity|exact R2]|]. constructor; [split; [reflexivity|exact R2]|]. constructor; [split; [reflexivity|exact R1]|]. constructor; [split; [reflexivity|]|constructor].
    apply text_reads; [reflexivity|]. intro nested. apply scheme_textual.
Qed.
Print Assumptions C105_arguments.
Example C105_example : number_text (s "060") (VInt 60) [] /\ one_of_words ["strict"; "lenient"] (s "Strict") (named "CaseInsensitive" (s "Strict")) [] /\
  (forall v cs, ~ number_text (s "") v cs) /\ (forall v cs, ~ number_text (s "+1") v cs).
Proof.
  split; [|split; [|split]].
  - split; [now apply some_of|]. split; reflexivity.
  - split; [|auto]. exists "strict". split; [now left|]. now apply same_text_lower.
  - intros v cs ((H & _) & _). now apply H.
  - intros v cs ((_ & H) & _). inversion H as [|c l H1 H2]. discriminate H1.
Qed.

(** ** C106: Alt-Svc *)

(** There is such a function, whatever the actions do. *)
Lemma decider nst : exists again, decides nst again /\ parses nst again.
Proof.
  pose (run := fun n w x => @inner_parse HG (@presult val vcomplaint) p_leaf (@p_act rec_rules (pyfun nst) (fun _ => false)) p_rep n w (as_nonterminal x)).
  assert (T : forall x w, is_proper x -> exists n, exists o, run n w x = Done o).
  { intros x w P. destruct (@C03_parser_terminates HG presult p_leaf (@p_act rec_rules (pyfun nst) (fun _ => false)) p_rep _ (proper_wf P) w) as (n & o & H). exists n, o. apply H. lia. }
  assert (Dn : forall x w n, {exists o, run n w x = Done o} + {~ exists o, run n w x = Done o}).
  { intros x w n. destruct (run n w x) as [o| |] eqn:E; [left; eauto|right; intros (o & H); congruence..]. }
  assert (Px : forall x, {is_proper x} + {~ is_proper x}) by (intro x; unfold is_proper; destruct (proper rec_names x); [now left|right; discriminate]).
  exists (fun x w => match Px x with
    | left P => match run (proj1_sig (constructive_indefinite_ground_description_nat _ (Dn x w) (T x w P))) w x with
                | Done (Accepted r) => Some (pr_node r, pr_complaints r)
                | _ => None
                end
    | right _ => None
    end).
  split; intros x w; [intro P|]; (destruct (Px x) as [P'|N]; [|first [contradiction|discriminate]]); destruct (constructive_indefinite_ground_description_nat _ (Dn x w) (T x w P')) as [n (o & H)]; cbn [proj1_sig];
    [|intros v cs; rewrite H; destruct o as [r|e]; [|discriminate]; intro E; exists (fun _ => false), r; split; [exists n; exact H|split; congruence]].
  rewrite H. destruct o as [r|e]; [exists (fun _ => false), r|exists (fun _ => false), e]; [split; [exists n; exact H|auto]|exists n; exact H].
Qed.

Theorem C106_alternatives : forall nst again, decides nst again -> reads_in (nested again) Alt_Svc alt_svc_text.
Proof. intros nst again D. apply reads_in_intro; [reflexivity|]. exact (Alt_Svc_M D). Qed.
Print Assumptions C106_alternatives.

Example C106_example :
  alt_svc_text (s "h2="":443""; ma=60, x=""y z""")
    (VList [with_params (VTuple [VBytes (s "h2"); VStr (s ":443")]) [VTuple [named "AltSvcParam" (s "ma"); VStr (s "60")]];
            with_params (VTuple [VBytes (s "x"); VUnavailable (VBytes (s "y z"))]) []])
    [(1257%N, [with_error; (s "authority", VStr (s "y z"))])] /\
  alt_svc_text (s "clear") (VStr (s "clear")) [] /\ forall v cs, ~ alt_svc_text (s "Clear") v cs.
Proof.
  split; [|split].
  - right. exists [Part [] (Some (s "h2="":443""; ma=60", with_params (VTuple [VBytes (s "h2"); VStr (s ":443")]) [VTuple [named "AltSvcParam" (s "ma"); VStr (s "60")]], [])) [];
      Part (s " ") (Some (s "x=""y z""", with_params (VTuple [VBytes (s "x"); VUnavailable (VBytes (s "y z"))]) [], [(1257%N, [with_error; (s "authority", VStr (s "y z"))])])) []].
    split; [|split; [split; [left; discriminate|split; reflexivity]|]].
    + constructor; [|constructor; [|constructor]]; (split; [repeat constructor|]); (split; [repeat constructor|]); cbn [p_element].
      * exists (s "h2"), (s """:443"""), (s "; ma=60"). do 3 eexists. exists [], [], []. split; [reflexivity|]. split; [|split; [|split; [|split; reflexivity]]].
        { split; [now apply a_token|]. exists (s "h2"), (s "h2"). split; [apply decodes_char; [discriminate|]; apply decodes_char; [discriminate|constructor]|]. split; [|auto].
          apply (@proper_cons _ (s "h")); [left; repeat split; discriminate|]. apply (@proper_cons _ (s "2")); [left; repeat split; discriminate|constructor]. }
        { exists (s ":443"), []. split; [exists (s ":443"""), (s ":443"), []; repeat split|]. left. split; [|auto]. exists [], (s "443"). split; [reflexivity|]. split; [left; constructor|repeat constructor]. }
        apply (@one_more _ [] (s " ") (s "ma=60") _ [] [] [] []); [constructor|now apply some_space| |constructor]. exists (s "ma"), (s "60"), (VStr (s "60")). split; [now apply a_token|]. split; [reflexivity|]. split; [|reflexivity]. left. split; [now apply a_token|auto].
      * exists (s "x"), (s """y z"""), []. do 3 eexists. exists [], [(1257%N, [with_error; (s "authority", VStr (s "y z"))])], []. split; [reflexivity|]. split; [|split; [|split; [constructor|split; reflexivity]]].
        { split; [now apply a_token|]. exists (s "x"), (s "x"). split; [apply decodes_char; [discriminate|constructor]|]. split; [|auto]. apply (@proper_cons _ (s "x")); [left; repeat split; discriminate|constructor]. }
        exists (s "y z"), []. split; [exists (s "y z"""), (s "y z"), []; repeat split|]. right. split; [|auto]. intros (h & p & K & _).
        assert (J : In 58%N (s "y z")) by (rewrite K; apply in_app_iff; right; now left). destruct J as [J|[J|[J|[]]]]; discriminate J.
    + split; [reflexivity|]. split; [reflexivity|]. right. split; [|reflexivity]. intros [_ E]. inversion E as [? ? H|? ? H]; subst; [discriminate H|]. inversion H as [? ? H'|? ? H']; subst; [discriminate H'|]. inversion H'.
  - left. auto.
  - intros v cs [(E & _)|(ps & F & (X & _) & E & _)]; [discriminate E|].
    assert (J : In 61%N (list_text ps)).
    { clear E. apply Exists_exists in X. destruct X as (p & I & X). rewrite Forall_forall in F. destruct (F p I) as (_ & _ & P). destruct (p_element p) as [[[w u] c]|] eqn:Q; [|now destruct (X Q)].
      destruct P as (a & b & r & pv & av & qs & c1 & c2 & c3 & -> & _).
      assert (K : In 61%N (part_text p)) by (unfold part_text; rewrite Q; apply in_app_iff; right; apply in_app_iff; left; apply in_app_iff; right; now left).
      clear - I K. unfold list_text. induction ps as [|q ps IH]; [destruct I|]. cbn. destruct ps as [|q' ps]; [destruct I as [->|[]]; exact K|]. apply in_app_iff. destruct I as [->|I]; [now left|]. right. right. now apply IH. }
    rewrite <- E in J. repeat (destruct J as [J|J]; [discriminate J|]). destruct J.
Qed.

(** ** C107: Link *)

Lemma list_shape_kept (ps qs : list (@part val vcomplaint)) :
  Forall2 (fun p q => p_before p = p_before q /\ p_after p = p_after q /\ (p_element p = None <-> p_element q = None)) ps qs -> list_shape ps -> list_shape qs.
Proof.
  intros F (A & B). split.
  - intros ->. inversion F; subst. now apply A.
  - destruct F as [|p q ps qs (E & _) F]; [exact B|]. cbn [trimmed_left] in *. congruence.
Qed.
Theorem C107_links : forall nst again, decides nst again -> reads_in (nested again) Link (list_spec link_value_text list_shape).
Proof.
  intros nst again D. apply (@reads_in_loose (nested again) Link (list_spec (link_exact again) list_shape)); [apply loose_list; [exact list_shape_kept|exact (loose_link D)]|].
  apply reads_in_intro; [reflexivity|]. exact (Link_M again).
Qed.
Print Assumptions C107_links.
Example C107_example :
  link_value_text (s "<x>;title=a;Title=b; type=x")
    (VObj (s "Parametrized") [VStr (s "x"); VObj (s "MultiDict") [VList [VTuple [named "CaseInsensitive" (s "title"); VStr (s "a")]; VTuple [named "CaseInsensitive" (s "type"); VUnavailable (VBytes (s "x"))]]]])
    [(1307%N, []); (1225%N, [(s "name", named "CaseInsensitive" (s "Title"))]);
     (1158%N, [with_error; (s "name", named "CaseInsensitive" (s "type")); (s "value", VStr (s "x"))]); (1309%N, [])].
Proof.
  assert (D : forall a b, map lower_c (s a) <> map lower_c (s b) -> ~ same_text a (s b)) by (intros a b N H; apply N; now apply same_text_lower).
  assert (E : forall a b, map lower_c (s a) = map lower_c (s b) -> same_text a (s b)) by (intros a b H; now apply same_text_lower).
  assert (B : forall n t, token_text n -> token_text t -> link_param_text (n ++ 61%N :: t) (n, Some (s "token", t)) []).
  { intros n t N T. exists [], (61%N :: t), [], []. assert (Z : bad_space [] []) by (split; [constructor|now left]). split; [reflexivity|]. split; [exact N|]. split; [exact Z|]. split; [reflexivity|].
    right. exists [], t, t, [], []. split; [reflexivity|]. split; [exact Z|]. split; [reflexivity|]. left. auto. }
  exists (s "x"), (s ";title=a;Title=b; type=x"), [(s "title", Some (s "token", s "a")); (s "Title", Some (s "token", s "b")); (s "type", Some (s "token", s "x"))]. eexists. exists []. eexists.
  split; [reflexivity|]. split; [|split; [|split; [reflexivity|split; [reflexivity|]]]].
  - right. exists (s "x"), []. split; [reflexivity|]. split; [|now left]. exists (s "x"), []. split; [reflexivity|]. split; [|split; [|now left]].
    + exists [], (s "x"). split; [reflexivity|]. split; [apply encoded_all; repeat constructor|]. right. split; [reflexivity|]. intros (y & K). discriminate K.
    + intros (x & y & K & _). assert (J : In 58%N (s "x")) by (rewrite K; apply in_app_iff; right; now left). destruct J as [J|[]]. discriminate J.
  - apply (@one_more_param [] [] (s "title=a") _ [] (s ";Title=b; type=x") _ []); [constructor|constructor|apply (B (s "title") (s "a")); now apply a_token|].
    apply (@one_more_param [] [] (s "Title=b") _ [] (s "; type=x") _ []); [constructor|constructor|apply (B (s "Title") (s "b")); now apply a_token|].
    apply (@one_more_param [] (s " ") (s "type=x") _ [] [] _ []); [constructor|now apply some_space|apply (B (s "type") (s "x")); now apply a_token|constructor].
  - right. split.
    { intros (b & n & a & K & _). assert (J : In (n, None) (b ++ (n, None) :: a)) by (apply in_app_iff; right; now left). rewrite <- K in J. destruct J as [J|[J|[J|[]]]]; discriminate J. }
    eexists. split; [|reflexivity].
    apply (@part_kept [] (s "title") _ _ (VStr (s "a")) _ [(1307%N, [])] [] [] [] _).
    + intros (_ & q & [] & _).
    + right. split; [|auto]. intros (m & R & I & H). unfold link_readings in I. cbn [In] in I.
      repeat (destruct I as [I|I]; [apply (f_equal fst) in I; cbn [fst] in I; subst m; revert H; apply D; discriminate|]). destruct I.
    + left. split; [|reflexivity]. split; [now apply E|]. exists [], (s "title"), (s "a"), []. split; [reflexivity|]. split; [intros (_ & q & [] & _)|]. intros c1 m x c2 K. destruct c1; discriminate K.
    + right. split; [|reflexivity]. intros (H & _). revert H. apply D. discriminate.
    + right. split; [|reflexivity]. apply D. discriminate.
    + cbn [app]. apply part_left_out; [split; [exists "title"; split; [cbn [In]; auto|reflexivity]|]; exists (s "title", Some (s "token", s "a")); split; [now left|reflexivity]|].
      apply (@part_kept _ (s "type") _ _ (VUnavailable (VBytes (s "x"))) _ [] [] [(1158%N, [with_error; (s "name", named "CaseInsensitive" (s "type")); (s "value", VStr (s "x"))])] [] _).
      * intros (_ & q & [<-|[<-|[]]] & H); discriminate H.
      * left. exists "type", link_type_text. split; [unfold link_readings; cbn [In]; auto 7|]. split; [now apply E|]. right. split; [|auto].
        intros (u & c & (a & b & K & _) & _). assert (J : In 47%N (s "x")) by (rewrite K; apply in_app_iff; right; now left). destruct J as [J|[]]. discriminate J.
      * right. split; [|reflexivity]. intros (H & _). revert H. apply D. discriminate.
      * right. split; [|reflexivity]. intros (H & _). revert H. apply D. discriminate.
      * right. split; [|reflexivity]. apply D. discriminate.
      * constructor. left. split; [|reflexivity]. intros (q & I & H). cbn [app In] in I. destruct I as [<-|[<-|[<-|[]]]]; revert H; apply D; discriminate.
Qed.

(** ** C108: all headers *)

(** The headers whose values are parsed, and how they are read. *)
Definition header_readings : list (string * reading) := [
  ("Accept", list_spec accept_text list_shape);
  ("Accept-Charset", list_spec (weighted charset_range) list1_shape);
  ("Accept-Encoding", list_spec (weighted coding_range) list_shape);
  ("Accept-Language", list_spec (weighted language_range_text) list1_shape);
  ("Accept-Patch", list_spec media_type_text list1_shape);
  ("Accept-Post", list_spec (media_range_text false) list_shape);
  ("Accept-Ranges", accept_ranges_text);
  ("Access-Control-Allow-Credentials", exactly ["true"]);
  ("Access-Control-Allow-Headers", list_spec (named_token "FieldName") list_shape);
  ("Access-Control-Allow-Methods", list_spec (named_token "Method") list_shape);
  ("Access-Control-Allow-Origin", as_text (fun w => (origin_of w \/ w = s "null") \/ w = s "*"));
  ("Access-Control-Expose-Headers", list_spec (named_token "FieldName") list_shape);
  ("Access-Control-Max-Age", number_text);
  ("Access-Control-Request-Headers", list_spec (named_token "FieldName") list1_shape);
  ("Access-Control-Request-Method", named_token "Method");
  ("Age", number_text);
  ("Allow", list_spec (named_token "Method") list_shape);
  ("Alt-Svc", alt_svc_text);
  ("Alt-Used", as_text host_and_port);
  ("Authorization", auth_text);
  ("Cache-Control", list_spec (directive_text "CacheDirective") list1_shape);
  ("Connection", list_spec (named_token "ConnectionOption") list1_shape);
  ("Content-Disposition", disposition_text);
  ("Content-Encoding", list_spec (named_token "ContentCoding") list1_shape);
  ("Content-Language", list_spec language_tag_text list1_shape);
  ("Content-Length", number_text);
  ("Content-Location", as_text absolute_or_partial);
  ("Content-Range", content_range_text);
  ("Content-Type", media_type_text);
  ("Cross-Origin-Resource-Policy", exactly ["same-origin"; "same-site"]);
  ("Date", date_spec);
  ("ETag", tag_reading);
  ("Expect", one_of_words ["100-continue"]);
  ("Expires", date_spec);
  ("Forwarded", list_spec forwarded_text list1_shape);
  ("HTTP2-Settings", as_text token68_text);
  ("HTTPolice-Silence", list_spec silence_text list_shape);
  ("Host", as_text host_and_port);
  ("If-Match", star_or_tags);
  ("If-Modified-Since", date_spec);
  ("If-None-Match", star_or_tags);
  ("If-Range", fun w v cs => tag_reading w v cs \/ date_spec w v cs);
  ("If-Unmodified-Since", date_spec);
  ("Last-Modified", date_spec);
  ("Link", list_spec link_value_text list_shape);
  ("Location", as_text reference_text);
  ("Max-Forwards", number_text);
  ("Origin", as_text (fun w => origin_of w \/ w = s "null"));
  ("Pragma", list_spec pragma_text list1_shape);
  ("Prefer", list_spec preference_text list1_shape);
  ("Preference-Applied", list_spec (preference_item "Preference") list1_shape);
  ("Proxy-Authenticate", list_spec auth_text list1_shape);
  ("Proxy-Authorization", auth_text);
  ("Range", range_text);
  ("Referer", as_text absolute_or_partial);
  ("Retry-After", fun w v cs => date_spec w v cs \/ number_text w v cs);
  ("Server", program_text);
  ("Strict-Transport-Security", some_parts semicolon hsts_directive);
  ("TE", list_spec te_text list_shape);
  ("Trailer", list_spec (named_token "FieldName") list1_shape);
  ("Transfer-Encoding", list_spec (transfer_coding_text false) list1_shape);
  ("Upgrade", list_spec (versioned "UpgradeToken") list1_shape);
  ("User-Agent", program_text);
  ("Vary", vary_text);
  ("Via", list_spec via_text list1_shape);
  ("WWW-Authenticate", list_spec auth_text list1_shape);
  ("Warning", list_spec (warning_text date_spec) list1_shape);
  ("X-Content-Type-Options", as_text (same_text "nosniff"))].
Definition header_symbols : list (string * symbol) := [("Accept", Accept); ("Accept-Charset", Accept_Charset); ("Accept-Encoding", Accept_Encoding); ("Accept-Language", Accept_Language); ("Accept-Patch", Accept_Patch); ("Accept-Post", Accept_Post); ("Accept-Ranges", Accept_Ranges); ("Access-Control-Allow-Credentials", Access_Control_Allow_Credentials); ("Access-Control-Allow-Headers", Access_Control_Allow_Headers); ("Access-Control-Allow-Methods", Access_Control_Allow_Methods); ("Access-Control-Allow-Origin", Access_Control_Allow_Origin); ("Access-Control-Expose-Headers", Access_Control_Expose_Headers); ("Access-Control-Max-Age", Access_Control_Max_Age); ("Access-Control-Request-Headers", Access_Control_Request_Headers); ("Access-Control-Request-Method", Access_Control_Request_Method); ("Age", Age); ("Allow", Allow); ("Alt-Svc", Alt_Svc); ("Alt-Used", Alt_Used); ("Authorization", Authorization); ("Cache-Control", Cache_Control); ("Connection", Connection); ("Content-Disposition", content_disposition); ("Content-Encoding", Content_Encoding); ("Content-Language", Content_Language); ("Content-Length", Content_Length); ("Content-Location", Content_Location); ("Content-Range", Content_Range); ("Content-Type", Content_Type); ("Cross-Origin-Resource-Policy", Cross_Origin_Resource_Policy); ("Date", Date); ("ETag", ETag); ("Expect", Expect); ("Expires", Expires); ("Forwarded", Forwarded); ("HTTP2-Settings", HTTP2_Settings); ("HTTPolice-Silence", HTTPolice_Silence); ("Host", Host); ("If-Match", If_Match); ("If-Modified-Since", If_Modified_Since); ("If-None-Match", If_None_Match); ("If-Range", If_Range); ("If-Unmodified-Since", If_Unmodified_Since); ("Last-Modified", Last_Modified); ("Link", Link); ("Location", Location); ("Max-Forwards", Max_Forwards); ("Origin", Origin); ("Pragma", Pragma); ("Prefer", Prefer); ("Preference-Applied", Preference_Applied); ("Proxy-Authenticate", Proxy_Authenticate); ("Proxy-Authorization", Proxy_Authorization); ("Range", Range); ("Referer", Referer); ("Retry-After", Retry_After); ("Server", Server); ("Strict-Transport-Security", Strict_Transport_Security); ("TE", TE); ("Trailer", Trailer); ("Transfer-Encoding", Transfer_Encoding); ("Upgrade", Upgrade); ("User-Agent", User_Agent); ("Vary", Vary); ("Via", Via); ("WWW-Authenticate", WWW_Authenticate); ("Warning", Warning_); ("X-Content-Type-Options", X_Content_Type_Options)].
Lemma reads_as_in nested x S : reads_as x S -> reads_in nested x S.
Proof. intros H a w. apply H. Qed.
Lemma header_known : map (fun i => (hk_key i, hk_syntax i)) (filter (fun i => match hk_syntax i with Some _ => true | None => false end) header_table) = map (fun p => (s (fst p), Some (snd p))) header_symbols.
Proof. reflexivity. Qed.
Lemma expect_read : reads_as Expect (one_of_words ["100-continue"]).
Proof.
  destruct C102_origins as (_ & _ & _ & _ & _ & _ & _ & _ & _ & _ & H & _). revert H. apply reads_loose. split.
  - intros w v cs (H & -> & ->). split; [|auto]. exists "100-continue". split; [now left|exact H].
  - intros w (v & cs & (x & [<-|[]] & H) & -> & ->). exists (named "CaseInsensitive" w), []. split; auto.
Qed.
Theorem C108_headers : forall nst again, decides nst again -> all_covered hk_key hk_syntax (reads_in (nested again)) header_table header_readings.
Proof.
  intros nst again D. apply (covered header_known).
  pose proof (C106_alternatives D) as RA. pose proof (C107_links D) as RL.
  destruct C85_media_types as (_ & R1 & R2). destruct C86_ranges as (R3 & R4). destruct C87_weights as (_ & R5 & R6). pose proof C89_cache_control as R7. destruct C90_transfer_codings as (R8 & R9).
  destruct C91_authentication as (R10 & R11 & R12 & R13). destruct C92_programs as (_ & R14 & R15). destruct C93_accepted as (R16 & R17 & R18). destruct C94_missing_parts as (R19 & R20 & R21 & R22).
  destruct C95_lists_of_names as (R23 & R24 & R25 & R26 & R27 & R28 & R29). destruct C96_hosts as (_ & _ & _ & _ & R30). destruct C97_uris as (_ & _ & R31 & R32 & R33 & _). destruct C98_language_tags as (_ & R34).
  destruct C99_dispositions as (_ & R35). destruct C100_intermediaries as (R36 & R37). destruct C101_conditions as (R38 & R39 & R40 & R41 & R42 & RD & RN). rewrite Forall_forall in RD, RN.
  destruct C102_origins as (R43 & R44 & R45 & R46 & R47 & R48 & R49 & R50 & R51 & R52 & _ & R53 & R54 & R55). pose proof C103_silence as R56. pose proof C11_content_length as R57. pose proof expect_read as R58.
  unfold header_symbols, header_readings.
  repeat (constructor; [split; [reflexivity|]; cbn [snd]; first [exact RA|exact RL|apply reads_as_in; first [assumption|apply RD; cbn [In]; auto 8; fail|apply RN; cbn [In]; auto 8; fail]]|]). constructor.
Qed.
Print Assumptions C108_headers.
(** There are functions that the theorems speak of, whatever the actions do, and
    so of C108: *)
Example C108_example nst : exists again, decides nst again /\ reads_in (nested again) Expect (one_of_words ["100-continue"]).
Proof. destruct (decider nst) as (again & D & _). exists again. split; [exact D|]. apply reads_as_in, expect_read. Qed.
