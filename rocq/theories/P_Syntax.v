(** The values of header fields: media types, weights, ranges, cache
    directives, protocol names.  The specifications are in HttpValues.v. *)
From Coq Require Import ZifyBool ZifyNat ZifyN Permutation String.
From Verif Require Import Base Earley EarleySpec Parse Grammar GrammarSem GrammarLang GrammarWF GrammarVals GrammarCalc
  Syntax Actions Reading HttpText P_Grammar HttpValues SyntaxDen SyntaxParts SyntaxKit SyntaxMore.
Open Scope nat_scope.
Open Scope list_scope.
Unset Strict Implicit.
Local Open Scope string_scope.
Local Open Scope list_scope.

Lemma reads_intro x S : is_proper x -> (forall nested, is_M nested x S) -> reads_as x S.
Proof. intros P H. apply reads_as_intro; [exact P|]. now apply means_is. Qed.
(** A list of items, under a name. *)
Lemma list_reads n p e (S : reading) : is_proper e -> (forall nested, is_M nested e S) -> (forall w v cs, S w v cs -> v <> VSkip /\ v <> VNone) ->
  (is_proper (seal n p (comma_list e)) -> reads_as (seal n p (comma_list e)) (list_spec S list_shape)) /\
  (is_proper (seal n p (comma_list1 e)) -> reads_as (seal n p (comma_list1 e)) (list_spec S list1_shape)).
Proof.
  intros P H Vis. assert (H' : means_as e S) by (now apply means_is). destruct (lists_mean P H' Vis) as [[_ A] [_ B]].
  split; intro P'; (apply reads_intro; [exact P'|]); intro nested; apply d_seal; now apply means_is.
Qed.

(** ** C85: media types *)

Lemma media_type_value w v cs : media_type_text w v cs -> v <> VSkip /\ v <> VNone.
Proof. intros (t & u & r & ps & c1 & c2 & _ & _ & _ & _ & -> & _). split; discriminate. Qed.
Theorem C85_media_types :
  reads_as media_type media_type_text /\ reads_as Content_Type media_type_text /\
  reads_as Accept_Patch (list_spec media_type_text list1_shape).
Proof.
  split; [|split].
  - apply reads_intro; [reflexivity|]. intro nested. apply media_type_M.
  - apply reads_intro; [reflexivity|]. intro nested. apply d_seal, media_type_M.
  - apply (@list_reads (s "Accept-Patch") true media_type media_type_text); [reflexivity|intro nested; apply media_type_M|apply media_type_value|reflexivity].
Qed.
Print Assumptions C85_media_types.
Example C85_example : media_type_text (s "Text/JSON ; charset=""utf\-8""")
  (with_params (named "MediaType" (s "Text/JSON")) [VTuple [named "CaseInsensitive" (s "charset"); VStr (s "utf-8")]])
  [(1282%N, [(s "bad", named "MediaType" (s "Text/JSON")); (s "good", named "MediaType" (s "application/json"))]); (1017%N, [(s "char", VStr (s "-"))])].
Proof.
  exists (s "Text"), (s "JSON"), (s " ; charset=""utf\-8"""), [VTuple [named "CaseInsensitive" (s "charset"); VStr (s "utf-8")]].
  exists [(1282%N, [(s "bad", named "MediaType" (s "Text/JSON")); (s "good", named "MediaType" (s "application/json"))])], [(1017%N, [(s "char", VStr (s "-"))])].
  assert (T : forall x, forallb is_tchar x && negb (Nat.eqb (List.length x) 0) = true -> token_text x).
  { intros x E. apply andb_true_iff in E. destruct E as [F L]. split; [intros ->; discriminate L|]. apply Forall_forall. now apply forallb_forall. }
  split; [apply T; reflexivity|]. split; [apply T; reflexivity|]. split; [reflexivity|]. split; [|split; [reflexivity|]; split; [|reflexivity]].
  - apply (@one_more (param "CaseInsensitive") (s " ") (s " ") (s "charset=""utf\-8""") (VTuple [named "CaseInsensitive" (s "charset"); VStr (s "utf-8")]) [(1017%N, [(s "char", VStr (s "-"))])] [] [] []);
      [repeat constructor|repeat constructor| |constructor].
    exists (s "charset"), (s """utf\-8"""), (VStr (s "utf-8")). split; [apply T; reflexivity|]. split; [reflexivity|]. split; [|reflexivity]. right.
    exists (s "utf\-8"""), (s "utf-8"), (s "-"). repeat split.
  - left. exists "text/json", "application/json". split; [cbn; auto|]. split; [|reflexivity]. now apply same_text_lower.
Qed.

(** ** C86: ranges *)

Theorem C86_ranges : reads_as Range range_text /\ reads_as Content_Range content_range_text.
Proof. split; (apply reads_intro; [reflexivity|]; intro nested); [apply Range_M|apply Content_Range_M]. Qed.
Print Assumptions C86_ranges.
Example C86_example :
  range_text (s "Bytes=5-3, -7") (VObj (s "RangeSpecifier") [named "RangeUnit" (s "Bytes"); VList [VTuple [VInt 5; VInt 3]; VTuple [VNone; VInt 7]]]) [(1133%N, [])] /\
  content_range_text (s "bytes 0-99/99") (VObj (s "ContentRange") [named "RangeUnit" (s "bytes"); VTuple [VTuple [VInt 0; VInt 99]; VInt 99]]) [(1148%N, [])].
Proof.
  assert (D : forall x, forallb is_digit x && negb (Nat.eqb (List.length x) 0) = true -> all1 is_digit x).
  { intros x E. apply andb_true_iff in E. destruct E as [F L]. split; [intros ->; discriminate L|]. apply Forall_forall. now apply forallb_forall. }
  split.
  - exists (s "Bytes"), (s "5-3, -7"), (VList [VTuple [VInt 5; VInt 3]; VTuple [VNone; VInt 7]]). split; [reflexivity|]. split; [reflexivity|]. left.
    split; [now apply same_text_lower|].
    exists [Part [] (Some (s "5-3", VTuple [VInt 5; VInt 3], [(1133%N, [])])) []; Part (s " ") (Some (s "-7", VTuple [VNone; VInt 7], [])) []].
    split; [|split; [split; [left; discriminate|split; reflexivity]|]].
    + constructor; [|constructor; [|constructor]]; (split; [repeat constructor|]); (split; [repeat constructor|]); cbn.
      * right. left. exists (s "5"), (s "3"). split; [now apply D|]. split; [now apply D|]. repeat split. left. repeat split.
      * right. right. exists (s "7"). split; [now apply D|]. repeat split.
    + split; [reflexivity|]. split; [reflexivity|]. right. split; [|reflexivity]. intros [_ E]. inversion E as [? ? H|? ? H]; subst; [discriminate H|]. inversion H as [? ? H'|? ? H']; subst; [discriminate H'|]. inversion H'.
  - exists (s "bytes"), (s "0-99/99"), (VTuple [VTuple [VInt 0; VInt 99]; VInt 99]). split; [reflexivity|]. split; [reflexivity|]. left. split; [now apply same_text_lower|]. left.
    exists (s "0"), (s "99"), (s "99"). split; [now apply D|]. split; [now apply D|]. split; [now apply D|]. repeat split. left. split; [right; apply N.le_refl|reflexivity].
Qed.

(** ** C87: weights *)

Lemma weighted_value (S : reading) w v cs : weighted S w v cs -> v <> VSkip /\ v <> VNone.
Proof. intros (x & r & u & _ & _ & [(_ & ->)|(a & b & q & e & _ & _ & _ & _ & _ & ->)]); split; discriminate. Qed.
Theorem C87_weights :
  reads_as qvalue (fun w v cs => quality w /\ v = VFloat w /\ cs = []) /\
  reads_as Accept_Encoding (list_spec (weighted coding_range) list_shape) /\
  reads_as Accept_Charset (list_spec (weighted charset_range) list1_shape).
Proof.
  split; [|split].
  - apply reads_intro; [reflexivity|]. intro nested. apply n_M, quality_V.
  - apply (@list_reads (s "Accept-Encoding") true (wrap (class "Parametrized") (seq2 codings (maybe_ weight)))); [reflexivity|intro nested; apply Accept_Encoding_item|apply weighted_value|reflexivity].
  - apply (@list_reads (s "Accept-Charset") true (wrap (class "Parametrized") (seq2 (alt charset (wrap (class "Charset") (literal (s "*")))) (maybe_ weight)))); [reflexivity|intro nested; apply Accept_Charset_item|apply weighted_value|reflexivity].
Qed.
Print Assumptions C87_weights.
Example C87_example : weighted coding_range (s "gzip;Q=0.5") (VObj (s "Parametrized") [named "ContentCoding" (s "gzip"); VFloat (s "0.5")]) [] /\ ~ quality (s "1.001") /\ ~ quality (s "0.0001").
Proof.
  split; [|split].
  - exists (s "gzip"), (s ";Q=0.5"), (named "ContentCoding" (s "gzip")). split; [split; [left|]; repeat split; [discriminate|repeat constructor]|]. split; [reflexivity|]. right.
    exists [], [], (s "Q"), (s "0.5"). split; [constructor|]. split; [constructor|]. split; [now apply same_text_lower|]. split; [|split; reflexivity].
    right. right. left. exists (s "5"). split; [reflexivity|]. split; [cbn; lia|repeat constructor].
  - intros [H|[H|[(d & H & _)|(d & H & _ & F)]]]; try discriminate H. injection H as <-. inversion F as [|? ? _ F1]; subst. inversion F1 as [|? ? _ F2]; subst. inversion F2 as [|? ? F3 _]; subst. discriminate F3.
  - intros [H|[H|[(d & H & L & _)|(d & H & _)]]]; try discriminate H. injection H as <-. cbn in L. lia.
Qed.

(** ** C88: protocols of alternative services *)

Theorem C88_protocols : reads_as protocol_id protocol_text.
Proof. apply reads_intro; [reflexivity|]. intro nested. apply protocol_M. Qed.
Print Assumptions C88_protocols.
(** There is one right way to write any bytes, and it stands for them. *)
Theorem C88_one_encoding : forall bytes, Forall (fun b => (b < 256)%N) bytes ->
  exists x, proper_encoding bytes x /\ decodes x bytes /\ all is_tchar x /\ forall y, proper_encoding bytes y -> y = x.
Proof.
  intros bs F. exists (encode_protocol_id bs). split; [now apply encode_proper|]. split; [|split].
  - pose proof (encode_proper F) as P. induction P as [|b x bs xs B P IH]; [constructor|]. inversion F as [|? ? F1 F2]; subst. specialize (IH F2).
    destruct B as [(T & Nb & ->)|(_ & hi & lo & h & l & -> & Hh & Hl & ->)]; [now apply decodes_char|]. apply decodes_pct; [now left|now left|exact IH].
  - pose proof (encode_proper F) as P. clear F. induction P as [|b x bs xs B P IH]; [constructor|]. apply Forall_app. split; [|exact IH].
    assert (U : forall n c, upper_hex n c -> is_tchar c = true).
    { intros n c H. unfold is_tchar. destruct H as [[L ->]|[L ->]]; [assert (E : is_digit (48 + n) = true) by (unfold is_digit; lia)|assert (E : is_alpha (65 + (n - 10)) = true) by (unfold is_alpha; lia)]; rewrite E, ?orb_true_r; reflexivity. }
    destruct B as [(T & Nb & ->)|(_ & hi & lo & h & l & -> & Hh & Hl & ->)]; repeat constructor; eauto.
  - intros y H. now apply proper_unique.
Qed.
Print Assumptions C88_one_encoding.
Example C88_example : protocol_text (s "h2%3a%31") (VBytes (s "h2:1")) [(1256%N, [(s "actual", VStr (s "h2%3a%31")); (s "correct", VStr (s "h2%3A1"))])].
Proof.
  split; [split; [discriminate|repeat constructor]|]. exists (s "h2:1"), (s "h2%3A1"). split; [|split; [|split; [reflexivity|]; right; split; [discriminate|reflexivity]]].
  - apply decodes_char; [discriminate|]. apply decodes_char; [discriminate|]. apply (@decodes_pct 3%N 10%N); [left; left; split; [lia|reflexivity]|right; split; [lia|reflexivity]|]. apply (@decodes_pct 3%N 1%N); [left; left; split; [lia|reflexivity]|left; left; split; [lia|reflexivity]|constructor].
  - apply (@proper_cons _ (s "h")); [left; repeat split; discriminate|]. apply (@proper_cons _ (s "2")); [left; repeat split; discriminate|].
    apply (@proper_cons _ (s "%3A")); [right; split; [now left|]; exists 3%N, 10%N, 51%N, 65%N; unfold upper_hex; split; [reflexivity|]; split; [lia|]; split; [lia|reflexivity]|]. apply (@proper_cons _ (s "1")); [left; repeat split; discriminate|constructor].
Qed.

(** ** C89: cache directives *)

Theorem C89_cache_control : reads_as Cache_Control (list_spec (directive_text "CacheDirective") list1_shape).
Proof.
  apply (@list_reads (s "Cache-Control") true cache_directive); [reflexivity|intro nested; apply directive_M| |reflexivity].
  intros w v cs (n & r & u & _ & _ & -> & _). split; discriminate.
Qed.
Print Assumptions C89_cache_control.
Example C89_example : directive_text "CacheDirective" (s "no-cache=""Age""") (VObj (s "Parametrized") [named "CacheDirective" (s "no-cache"); VTuple [VStr (s "quoted-string"); VStr (s "Age")]]) [].
Proof.
  exists (s "no-cache"), (s "=""Age"""), (VTuple [VStr (s "quoted-string"); VStr (s "Age")]). split; [split; [discriminate|repeat constructor]|]. split; [reflexivity|]. split; [reflexivity|]. right.
  exists (s """Age"""), (VStr (s "Age")). split; [reflexivity|]. right. split; [|reflexivity]. exists (s "Age"""), (s "Age"), []. repeat split.
Qed.
