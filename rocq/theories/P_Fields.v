(** The values of more header fields: transfer codings, challenges and
    credentials, names of programs, what is accepted, parts that may be
    missing, lists of names.  The specifications are in HttpValues.v. *)
From Coq Require Import ZifyBool ZifyNat ZifyN Permutation String.
From Verif Require Import Base Earley EarleySpec Parse Grammar GrammarSem GrammarLang GrammarWF GrammarVals GrammarCalc
  Syntax Actions Reading HttpText P_Grammar HttpValues SyntaxVals SyntaxDen SyntaxParts SyntaxKit SyntaxMore P_Syntax SyntaxFields SyntaxAgents.
Open Scope nat_scope.
Open Scope list_scope.
Unset Strict Implicit.
Local Open Scope string_scope.
Local Open Scope list_scope.

Lemma a_token x : forallb is_tchar x && negb (Nat.eqb (List.length x) 0) = true -> token_text x.
Proof. intro E. apply andb_true_iff in E. destruct E as [F L]. split; [intros ->; discriminate L|]. apply Forall_forall. now apply forallb_forall. Qed.
Lemma some_space x : forallb is_ws x = true -> ows x.
Proof. intro E. apply Forall_forall. now apply forallb_forall. Qed.

(** ** C90: transfer codings *)

Lemma transfer_value te w v cs : transfer_coding_text te w v cs -> v <> VSkip /\ v <> VNone.
Proof. intros (n & r & ps & _ & _ & -> & _). split; discriminate. Qed.
Theorem C90_transfer_codings :
  reads_as Transfer_Encoding (list_spec (transfer_coding_text false) list1_shape) /\
  reads_as TE (list_spec te_text list_shape).
Proof.
  split.
  - apply (@list_reads (s "Transfer-Encoding") true (transfer_coding false false)); [reflexivity|intro nested; apply n_M, (@transfer_coding_V nested false)|apply transfer_value|reflexivity].
  - apply (@list_reads (s "TE") true t_codings); [reflexivity|intro nested; apply te_M| |reflexivity].
    intros w v cs [(_ & -> & _)|H]; [split; discriminate|apply (weighted_value H)].
Qed.
Print Assumptions C90_transfer_codings.
Example C90_example :
  transfer_coding_text false (s "foo;Q = 1") (with_params (named "TransferCoding" (s "foo")) [VTuple [VStr (s "Q"); VStr (s "1")]]) [(1015%N, []); (1015%N, [])] /\
  transfer_coding_text true (s "GZip") (with_params (named "TransferCoding" (s "GZip")) []) [] /\
  (forall v cs, ~ transfer_coding_text false (s "chunked;a=1") v cs).
Proof.
  assert (O : forall a, forallb (fun x => negb (str_eqb (map lower_c (s x)) (map lower_c (s a)))) ["chunked"; "compress"; "deflate"; "gzip"] = true -> ~ own_coding (s a)).
  { intros a E (x & I & S). rewrite forallb_forall in E. specialize (E x I). apply same_text_lower in S. rewrite S in E. assert (R : str_eqb (map lower_c (s a)) (map lower_c (s a)) = true) by now apply str_eqb_eq. now rewrite R in E. }
  split; [|split].
  - exists (s "foo"), (s ";Q = 1"), [VTuple [VStr (s "Q"); VStr (s "1")]]. split; [now apply a_token|]. split; [reflexivity|]. split; [reflexivity|]. right. split; [now apply O|]. split; [discriminate|].
    apply (@one_more _ [] [] (s "Q = 1") _ [(1015%N, []); (1015%N, [])] [] [] []); [constructor|constructor| |constructor].
    exists (s "Q"), (s " = "), (s "1"), (VStr (s "1")), [(1015%N, []); (1015%N, [])], []. split; [now apply a_token|]. split; [discriminate|].
    split; [|split; [left; split; [now apply a_token|auto]|auto]]. exists (s " "), (s " "), [(1015%N, [])], [(1015%N, [])]. split; [reflexivity|]. assert (B : bad_space (s " ") [(1015%N, [])]) by (split; [now apply some_space|right; split; [discriminate|reflexivity]]). auto.
  - exists (s "GZip"), [], []. split; [now apply a_token|]. split; [reflexivity|]. split; [reflexivity|]. left. split; [|auto]. exists "gzip". split; [cbn; auto|now apply same_text_lower].
  - intros v cs (name & rest & ps & T & E & _ & H).
    assert (R : rest = [] \/ exists c r, rest = c :: r /\ is_ws c || N.eqb c 59 = true).
    { destruct H as [(_ & -> & _)|(_ & _ & H)]; [now left|]. inversion H as [|a b w' v' cs' ws vs css Oa Ob P Q]; subst; [now left|right]. destruct a as [|c a]; [exists 59%N, (b ++ w' ++ ws); auto|]. exists c, (a ++ 59%N :: b ++ w' ++ ws). split; [reflexivity|]. inversion Oa as [|? ? W _]; subst. now rewrite W. }
    assert (G : name = s "chunked" \/ False).
    { destruct T as [_ F]. change (s "chunked;a=1") with [99%N; 104%N; 117%N; 110%N; 107%N; 101%N; 100%N; 59%N; 97%N; 61%N; 49%N] in E. change (s "chunked") with [99%N; 104%N; 117%N; 110%N; 107%N; 101%N; 100%N]. clear H.
      do 7 (destruct name as [|? name]; [right; cbn [app] in E; rewrite <- E in R; destruct R as [R|(c & r & R & W)]; [discriminate R|]; injection R as <- <-; discriminate W|]; cbn [app] in E; injection E as <- E; inversion F as [|? ? _ F']; subst; clear F; rename F' into F).
      destruct name as [|? name]; [now left|right]. cbn [app] in E. injection E as <- E. inversion F as [|? ? F1 _]; subst. discriminate F1. }
    destruct G as [->|[]]. change (s "chunked;a=1") with (s "chunked" ++ s ";a=1") in E. apply app_inv_head in E. subst rest. destruct H as [(_ & H & _)|(H & _)]; [discriminate H|]. apply H. exists "chunked". split; [now left|now apply same_text_lower].
Qed.

(** ** C91: challenges and credentials *)

Theorem C91_authentication :
  reads_as WWW_Authenticate (list_spec auth_text list1_shape) /\ reads_as Proxy_Authenticate (list_spec auth_text list1_shape) /\
  reads_as Authorization auth_text /\ reads_as Proxy_Authorization auth_text.
Proof.
  assert (X : forall w v cs, auth_text w v cs -> v <> VSkip /\ v <> VNone) by (intros w v cs (sc & r & u & _ & _ & -> & _); split; discriminate).
  split; [|split; [|split]].
  - apply (@list_reads (s "WWW-Authenticate") true challenge); [reflexivity|intro nested; apply n_M, auth_V|exact X|reflexivity].
  - apply (@list_reads (s "Proxy-Authenticate") true challenge); [reflexivity|intro nested; apply n_M, auth_V|exact X|reflexivity].
  - apply reads_intro; [reflexivity|]. intro nested. apply d_seal, n_M, auth_V.
  - apply reads_intro; [reflexivity|]. intro nested. apply d_seal, n_M, auth_V.
Qed.
Print Assumptions C91_authentication.
Example C91_example :
  auth_text (s "Basic Realm=x") (VObj (s "Parametrized") [named "AuthScheme" (s "Basic"); VObj (s "MultiDict") [VList [VTuple [named "CaseInsensitive" (s "Realm"); VStr (s "x")]]]]) [(1196%N, [])] /\
  auth_text (s "Basic Zm9v==") (VObj (s "Parametrized") [named "AuthScheme" (s "Basic"); VStr (s "Zm9v==")]) [].
Proof.
  split.
  - exists (s "Basic"), (s " Realm=x"). eexists. split; [now apply a_token|]. split; [reflexivity|]. split; [reflexivity|]. right. exists (s " "), (s "Realm=x"). split; [split; [discriminate|repeat constructor]|]. split; [reflexivity|]. right. eexists. split; [|reflexivity].
    exists [Part [] (Some (s "Realm=x", VTuple [named "CaseInsensitive" (s "Realm"); VStr (s "x")], [(1196%N, [])])) []]. split; [constructor; [|constructor]; split; [constructor|]; split; [constructor|]; cbn|].
    + exists (s "Realm"), (s "="), (s "x"), (VStr (s "x")), [], [], [(1196%N, [])]. split; [now apply a_token|]. split; [exists [], [], [], []; split; [reflexivity|]; assert (B : bad_space [] []) by (split; [constructor|left; auto]); auto|]. split; [reflexivity|]. split; [reflexivity|]. split; [reflexivity|].
      left. split; [now apply a_token|]. split; [reflexivity|]. split; [reflexivity|]. left. split; [now apply same_text_lower|reflexivity].
    + split; [cbn; repeat split; auto; discriminate|]. split; [reflexivity|]. split; [reflexivity|]. right. split; [|reflexivity]. intros [L _]. cbn in L. lia.
  - exists (s "Basic"), (s " Zm9v=="). eexists. split; [now apply a_token|]. split; [reflexivity|]. split; [reflexivity|]. right. exists (s " "), (s "Zm9v=="). split; [split; [discriminate|repeat constructor]|]. split; [reflexivity|]. left. split; [|auto].
    exists (s "Zm9v"), (s "=="). split; [reflexivity|]. split; [split; [discriminate|repeat constructor]|repeat constructor].
Qed.

(** ** C92: comments and names of programs *)

Theorem C92_programs : reads_as comment comment_text /\ reads_as User_Agent program_text /\ reads_as Server program_text.
Proof. split; [|split]; (apply reads_intro; [reflexivity|]); intro nested; [apply comment_M|apply program_M|apply program_M]. Qed.
Print Assumptions C92_programs.
Example C92_example : program_text (s "A/1  (b (\c) \))")
  (VList [VObj (s "Versioned") [named "ProductName" (s "A"); VStr (s "1")]; VStr (s "b (c) )")]) [(1014%N, [(s "num", VInt 2)]); (1017%N, [(s "char", VStr (s "c"))])].
Proof.
  exists (s "A/1"), (s "  (b (\c) \))"). eexists. eexists. split; [reflexivity|]. split; [|split; [|reflexivity]].
  - split; [reflexivity|]. exists (s "A"). split; [now apply a_token|]. right. exists (s "1"). split; [now apply a_token|split; reflexivity].
  - apply (@part_after white_space product_or_comment (s "  ") [(1014%N, [(s "num", VInt 2)])] (s "(b (\c) \))") (VStr (s "b (c) )")) [(1017%N, [(s "char", VStr (s "c"))])] [] [] []); [split; [split; [discriminate|repeat constructor]|right; split; [discriminate|reflexivity]]| |constructor].
    right. exists (s "b (\c) \)"), (s "b (c) )"). split; [reflexivity|]. split; [|reflexivity].
    apply inside_char; [reflexivity|]. apply inside_char; [reflexivity|]. apply (@inside_nested (s "\c") (s "c") [(1017%N, [(s "char", VStr (s "c"))])] (s " \)") (s " )") []).
    + apply (@inside_quoted 99%N [] [] []); [reflexivity|constructor].
    + apply inside_char; [reflexivity|]. apply (@inside_quoted 41%N [] [] []); [reflexivity|constructor].
Qed.

(** ** C93: what is accepted *)

Lemma range_value no_q w v cs : media_range_text no_q w v cs -> v <> VSkip /\ v <> VNone.
Proof. intros (t & u & r & ps & k & c1 & c2 & _ & _ & _ & _ & -> & _). split; discriminate. Qed.
Theorem C93_accepted :
  reads_as Accept (list_spec accept_text list_shape) /\ reads_as Accept_Language (list_spec (weighted language_range_text) list1_shape) /\
  reads_as Accept_Post (list_spec (media_range_text false) list_shape).
Proof.
  split; [|split].
  - apply (@list_reads (s "Accept") true (wrap (class "Parametrized") (seq2 (media_range true) (maybe accept_params (VObj (s "MultiDict") [VList []]))))); [reflexivity|intro nested; apply accept_M| |reflexivity].
    intros w v cs (x & r & u & k & c1 & c2 & _ & _ & -> & _). split; discriminate.
  - apply (@list_reads (s "Accept-Language") true (wrap (class "Parametrized") (seq2 language_range (maybe_ weight)))); [reflexivity|intro nested; apply Accept_Language_item|apply weighted_value|reflexivity].
  - apply (@list_reads (s "Accept-Post") true (media_range false)); [reflexivity|intro nested; apply n_M, media_range_V|apply range_value|reflexivity].
Qed.
Print Assumptions C93_accepted.
Example C93_example : accept_text (s "text/*;a=1;q=0;b") (VObj (s "Parametrized") [with_params (VStr (s "text/*")) [VTuple [named "CaseInsensitive" (s "a"); VStr (s "1")]];
    VObj (s "MultiDict") [VList [VTuple [named "CaseInsensitive" (s "q"); VFloat (s "0")]; VTuple [VStr (s "b"); VNone]]]]) [] /\
  weighted language_range_text (s "en-GB") (VObj (s "Parametrized") [named "CaseInsensitive" (s "en-GB"); VNone]) [].
Proof.
  split.
  - exists (s "text/*;a=1"), (s ";q=0;b"). eexists. eexists. exists [], []. split; [|split; [reflexivity|split; [reflexivity|split; [reflexivity|]]]].
    + exists (s "text"), (s "*"), (s ";a=1"), [VTuple [named "CaseInsensitive" (s "a"); VStr (s "1")]], (VStr (s "text/*")), [], []. split; [now apply a_token|]. split; [now apply a_token|]. split; [reflexivity|]. split; [|split; [reflexivity|split; [reflexivity|left; auto]]].
      apply (@one_more _ [] [] (s "a=1") _ [] [] [] []); [constructor|constructor| |constructor]. exists (s "a"), (s "1"), (VStr (s "1")). split; [now apply a_token|]. split; [intros _ Q; apply same_text_lower in Q; discriminate Q|]. split; [reflexivity|]. split; [left; split; [now apply a_token|auto]|reflexivity].
    + right. exists [], [], (s "q"), (s "0"), (s ";b"), [VTuple [VStr (s "b"); VNone]]. split; [constructor|]. split; [constructor|]. split; [now apply same_text_lower|]. split; [now left|]. split; [reflexivity|]. split; [|reflexivity].
      apply (@one_more _ [] [] (s "b") _ [] [] [] []); [constructor|constructor| |constructor]. exists (s "b"), [], VNone. split; [now apply a_token|]. split; [reflexivity|]. split; [reflexivity|]. left. auto.
  - exists (s "en-GB"), [], (named "CaseInsensitive" (s "en-GB")). split; [|split; [reflexivity|left; auto]]. split; [reflexivity|]. split; [reflexivity|]. right. exists (s "en"), [s "GB"]. split; [split; [repeat constructor|cbn; lia]|]. split; [|reflexivity]. constructor; [|constructor]. split; [repeat constructor|cbn; lia].
Qed.

(** ** C94: parts that may be missing *)

Lemma item_value c w v cs : preference_item c w v cs -> v <> VSkip /\ v <> VNone.
Proof. intros (n & r & u & _ & _ & -> & _). split; discriminate. Qed.
Theorem C94_missing_parts :
  reads_as Strict_Transport_Security (some_parts semicolon hsts_directive) /\
  reads_as Forwarded (list_spec forwarded_text list1_shape) /\
  reads_as Prefer (list_spec preference_text list1_shape) /\
  reads_as Preference_Applied (list_spec (preference_item "Preference") list1_shape).
Proof.
  split; [|split; [|split]].
  - apply reads_intro; [reflexivity|]. intro nested. apply HSTS_M.
  - apply (@list_reads (s "Forwarded") true forwarded_element); [reflexivity|intro nested; apply forwarded_M| |reflexivity].
    intros w v cs (w1 & v1 & c1 & r & vs & c2 & _ & _ & _ & -> & _). split; discriminate.
  - apply (@list_reads (s "Prefer") true preference); [reflexivity|intro nested; apply preference_M| |reflexivity].
    intros w v cs (w1 & u & c1 & r & us & c2 & _ & _ & _ & -> & _). split; discriminate.
  - apply (@list_reads (s "Preference-Applied") true (preference_parameter true)); [reflexivity|intro nested; apply n_M, (@preference_item_V nested true)|apply item_value|reflexivity].
Qed.
Print Assumptions C94_missing_parts.
Example C94_example :
  some_parts semicolon hsts_directive (s "; max-age = 1") (VList [VObj (s "Parametrized") [named "HSTSDirective" (s "max-age"); VStr (s "1")]]) [] /\
  forwarded_text (s "by=a;") (VList [VTuple [named "ForwardedParam" (s "by"); VStr (s "a")]]) [] /\
  preference_text (s "wait="""";;a") (VObj (s "Parametrized") [VObj (s "Parametrized") [named "Preference" (s "wait"); VNone];
    VList [VNone; VObj (s "Parametrized") [named "CaseInsensitive" (s "a"); VNone]]]) [].
Proof.
  split; [|split].
  - exists [], VNone, [], (s "; max-age = 1"), [VObj (s "Parametrized") [named "HSTSDirective" (s "max-age"); VStr (s "1")]], []. split; [reflexivity|]. split; [right; auto|]. split; [|split; reflexivity].
    apply (@part_after semicolon (perhaps hsts_directive) (s "; ") [] (s "max-age = 1") _ [] [] [] []); [split; [reflexivity|]; exists [], (s " "); split; [constructor|split; [now apply some_space|reflexivity]]| |constructor].
    left. exists (s "max-age"), (s " = 1"), (VStr (s "1")). split; [now apply a_token|]. split; [reflexivity|]. split; [reflexivity|]. right. exists (s " "), (s " "), (s "1"). split; [now apply some_space|]. split; [now apply some_space|]. split; [reflexivity|]. left. split; [now apply a_token|auto].
  - exists (s "by=a"), (VTuple [named "ForwardedParam" (s "by"); VStr (s "a")]), [], (s ";"), [VNone], []. split; [reflexivity|]. split; [|split; [|split; reflexivity]].
    + left. exists (s "by"), (s "a"), (VStr (s "a")). split; [now apply a_token|]. split; [reflexivity|]. split; [left; split; [now apply a_token|auto]|reflexivity].
    + apply (@part_after _ _ (s ";") [] [] VNone [] [] [] []); [split; reflexivity|right; auto|constructor].
  - exists (s "wait="""""), (VObj (s "Parametrized") [named "Preference" (s "wait"); VNone]), [], (s ";;a"), [VNone; VObj (s "Parametrized") [named "CaseInsensitive" (s "a"); VNone]], []. split; [reflexivity|]. split; [|split; [|split; reflexivity]].
    + exists (s "wait"), (s "="""""), VNone. split; [now apply a_token|]. split; [reflexivity|]. split; [reflexivity|]. right. exists (s """"""), (VStr []). split; [reflexivity|]. split; [right; exists (s """"), [], []; repeat split|left; auto].
    + apply (@part_after _ _ (s ";") [] [] VNone [] (s ";a") [VObj (s "Parametrized") [named "CaseInsensitive" (s "a"); VNone]] []); [split; [reflexivity|]; exists []; split; [constructor|reflexivity]|right; auto|].
      apply (@part_after _ _ (s ";") [] (s "a") (VObj (s "Parametrized") [named "CaseInsensitive" (s "a"); VNone]) [] [] [] []); [split; [reflexivity|]; exists []; split; [constructor|reflexivity]| |constructor].
      left. exists [], (s "a"). split; [constructor|]. split; [reflexivity|]. exists (s "a"), [], VNone. split; [now apply a_token|]. split; [reflexivity|]. split; [reflexivity|]. left. auto.
Qed.

(** ** C95: lists of names *)

Lemma named_M nested n c : is_M nested (pivot_ n (wrap (class c) token)) (named_token c).
Proof. apply d_seal. apply n_M, n_class, token_textual. Qed.
Lemma named_value c w v cs : named_token c w v cs -> v <> VSkip /\ v <> VNone.
Proof. intros (_ & -> & _). split; discriminate. Qed.
Theorem C95_lists_of_names :
  reads_as Connection (list_spec (named_token "ConnectionOption") list1_shape) /\
  reads_as Trailer (list_spec (named_token "FieldName") list1_shape) /\
  reads_as Allow (list_spec (named_token "Method") list_shape) /\
  reads_as Content_Encoding (list_spec (named_token "ContentCoding") list1_shape) /\
  reads_as Upgrade (list_spec (versioned "UpgradeToken") list1_shape) /\
  reads_as Vary vary_text /\ reads_as Accept_Ranges accept_ranges_text.
Proof.
  split; [|split; [|split; [|split; [|split; [|split]]]]].
  - apply (@list_reads (s "Connection") true connection_option); [reflexivity|intro nested; apply named_M|apply named_value|reflexivity].
  - apply (@list_reads (s "Trailer") true field_name); [reflexivity|intro nested; apply named_M|apply named_value|reflexivity].
  - apply (@list_reads (s "Allow") true method); [reflexivity|intro nested; apply named_M|apply named_value|reflexivity].
  - apply (@list_reads (s "Content-Encoding") true content_coding); [reflexivity|intro nested; apply named_M|apply named_value|reflexivity].
  - apply (@list_reads (s "Upgrade") true protocol); [reflexivity|intro nested; apply protocol_name_M| |reflexivity].
    intros w v cs (_ & n & _ & [(_ & ->)|(x & _ & _ & ->)]); split; discriminate.
  - apply reads_intro; [reflexivity|]. intro nested. apply d_seal, n_M. eapply n_ext; [apply n_alt; [apply n_text, (@lit_textual nested "*"); reflexivity|]|].
    + apply d_nodeV; [reflexivity|]. apply (proj2 (means_is _ (list_spec (named_token "FieldName") list1_shape))). refine (proj2 (proj2 (@lists_mean field_name (named_token "FieldName") eq_refl _ _))); [apply means_is; intro; apply named_M|apply named_value].
    + intros w v cs. unfold either, plain, vary_text. split; (intros [(-> & -> & ->)|H]; [left; auto|right; exact H]).
  - apply reads_intro; [reflexivity|]. intro nested. apply d_seal, d_seal, n_M. eapply n_ext; [apply n_alt; [apply n_class, same_textual|]|].
    + apply d_nodeV; [reflexivity|]. apply (proj2 (means_is _ (list_spec (named_token "RangeUnit") list1_shape))). refine (proj2 (proj2 (@lists_mean range_unit (named_token "RangeUnit") eq_refl _ _))); [apply means_is; intro nested'|apply named_value].
      apply d_seal, n_M. eapply n_ext; [apply n_alt; [apply bytes_V|apply other_unit_V]|].
      intros w v cs. unfold either, plain, named_token. split.
      * intros [(X & -> & ->)|((T & X) & -> & ->)]; [split; [now apply (@same_token "bytes")|auto]|auto].
      * intros (T & -> & ->). destruct (str_eqb (map lower_c (s "bytes")) (map lower_c w)) eqn:E; [left; split; [apply same_text_lower; now apply str_eqb_eq|auto]|right]. split; [|auto]. split; [exact T|]. intro S. apply same_text_lower, str_eqb_eq in S. congruence.
    + intros w v cs. unfold either, plain, accept_ranges_text. tauto.
Qed.
Print Assumptions C95_lists_of_names.
Example C95_example :
  list_spec (versioned "UpgradeToken") list1_shape (s ",h2c , TLS/1") (VList [VObj (s "Versioned") [named "UpgradeToken" (s "h2c"); VNone]; VObj (s "Versioned") [named "UpgradeToken" (s "TLS"); VStr (s "1")]]) [(1151%N, [])] /\
  vary_text (s "*") (VStr (s "*")) [].
Proof.
  split; [|left; auto].
  exists [Part [] None []; Part [] (Some (s "h2c", VObj (s "Versioned") [named "UpgradeToken" (s "h2c"); VNone], [])) (s " "); Part (s " ") (Some (s "TLS/1", VObj (s "Versioned") [named "UpgradeToken" (s "TLS"); VStr (s "1")], [])) []].
  split; [|split; [split; [|split; reflexivity]|]].
  - constructor; [|constructor; [|constructor; [|constructor]]]; (split; [now apply some_space|]); (split; [now apply some_space|]); cbn; auto.
    + split; [reflexivity|]. exists (s "h2c"). split; [now apply a_token|]. left. auto.
    + split; [reflexivity|]. exists (s "TLS"). split; [now apply a_token|]. right. exists (s "1"). split; [now apply a_token|auto].
  - right. left. discriminate.
  - split; [reflexivity|]. split; [reflexivity|]. left. split; [|reflexivity]. split; [cbn; lia|]. now left.
Qed.
