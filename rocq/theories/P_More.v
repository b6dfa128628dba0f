(** C98 to C104: language tags, encoded parameters, Via and Warning, conditions,
    and others.  The specifications are in MoreValues.v and UriText.v. *)
From Coq Require Import ZifyBool ZifyNat ZifyN Permutation String.
From Verif Require Import Base Earley EarleySpec Parse Grammar GrammarSem GrammarLang GrammarWF GrammarVals GrammarCalc
  Syntax Actions Reading HttpText HttpDate SyntaxTags SyntaxDates P_Grammar HttpValues SyntaxVals SyntaxDen SyntaxParts SyntaxKit SyntaxMore SyntaxFields SyntaxAgents P_Syntax P_Fields UriText SyntaxUri P_Uri MoreValues SyntaxLang Utf8 SyntaxExt SyntaxRest.
Open Scope nat_scope.
Open Scope list_scope.
Unset Strict Implicit.
Local Open Scope string_scope.
Local Open Scope list_scope.

Lemma read_M x S : is_proper x -> (forall nested, is_M nested x S) -> reads_as x S.
Proof. apply reads_intro. Qed.

(** ** C98: language tags *)

Theorem C98_language_tags : reads_as Language_Tag language_tag_text /\ reads_as Content_Language (list_spec language_tag_text list1_shape).
Proof.
  split.
  - apply read_M; [reflexivity|]. intro nested. apply n_M, Language_Tag_V.
  - apply (@list_reads (s "Content-Language") true Language_Tag language_tag_text); [reflexivity|intro nested; apply n_M, Language_Tag_V|intros w v cs (_ & -> & _); split; discriminate|reflexivity].
Qed.
Print Assumptions C98_language_tags.
Lemma a_subtag p lo hi x : forallb p x && Nat.leb lo (List.length x) && Nat.leb (List.length x) hi = true -> subtag_of p lo hi x.
Proof. intro E. apply andb_true_iff in E. destruct E as [E L2]. apply andb_true_iff in E. destruct E as [F L1]. apply Nat.leb_le in L1, L2. split; [apply Forall_forall; now apply forallb_forall|auto]. Qed.
Example C98_example : language_tag (s "zh-cmn-Hant-TW-1901-u-co-phonebk-x-a") /\ language_tag (s "X-whatever") /\ language_tag (s "I-KLINGON") /\
  ~ language_parts [s "en"; s "u"] /\ ~ language_tag (s "e").
Proof.
  split; [|split; [|split; [|split]]].
  - left. exists [s "zh"; s "cmn"; s "Hant"; s "TW"; s "1901"; s "u"; s "co"; s "phonebk"; s "x"; s "a"]. split; [reflexivity|]. left. exists (s "zh"), [s "cmn"], [s "Hant"], [s "TW"], [s "1901"], [[s "u"; s "co"; s "phonebk"]], [s "x"; s "a"].
    split; [reflexivity|]. split; [left; split; [now apply a_subtag|]; split; [cbn; lia|]; constructor; [now apply a_subtag|constructor]|]. split; [right; exists (s "Hant"); split; [reflexivity|now apply a_subtag]|]. split; [right; exists (s "TW"); split; [reflexivity|left; now apply a_subtag]|].
    split; [constructor; [|constructor]; right; exists 49%N, (s "901"); split; [reflexivity|]; split; [reflexivity|now apply a_subtag]|]. split.
    + constructor; [|constructor]. exists 117%N, [s "co"; s "phonebk"]. split; [reflexivity|]. split; [reflexivity|]. split; [unfold is_x; lia|]. split; [discriminate|]. repeat (constructor; [now apply a_subtag|]). constructor.
    + right. exists 120%N, [s "a"]. split; [reflexivity|]. split; [now right|]. split; [discriminate|]. constructor; [now apply a_subtag|constructor].
  - left. exists [s "X"; s "whatever"]. split; [reflexivity|]. right. exists 88%N, [s "whatever"]. split; [reflexivity|]. split; [now left|]. split; [discriminate|]. constructor; [now apply a_subtag|constructor].
  - right. exists "i-klingon". split; [cbn; auto 9|]. now apply same_text_lower.
  - (* an extension needs a subtag *)
    intros (x & e & sc & r & vs & es & p & E & P & S1 & R & F & G & Q). injection E as <- E.
    assert (L : forall l, [s "u"] = l -> forall n, Forall (fun w => n <= List.length w) l -> n <= 1) by (intros l <- n H; inversion H; subst; assumption).
    assert (B : forall (l1 l2 : list str), [s "u"] = l1 ++ l2 -> l1 = [] /\ l2 = [s "u"] \/ l1 = [s "u"] /\ l2 = []).
    { intros [|a l1] l2 H; [auto|]. right. injection H as <- H. symmetry in H. apply app_eq_nil in H. destruct H as [-> ->]. auto. }
    assert (U : forall q k m, m > 1 -> ~ subtag_of q m k (s "u")) by (intros q k m H (_ & K); cbn in K; lia).
    destruct (B _ _ E) as [[-> E1]|[-> _]]; [|destruct P as [(_ & _ & H)|(_ & H)]; [inversion H as [|? ? H1]; now apply U in H1; lia|discriminate H]]. symmetry in E1.
    destruct (B _ _ E1) as [[-> E2]|[-> _]]; [|destruct S1 as [H|(x & H & H1)]; [discriminate H|]; injection H as <-; now apply U in H1; lia]. symmetry in E2.
    destruct (B _ _ E2) as [[-> E3]|[-> _]]; [|destruct R as [H|(x & H & [H1|H1])]; [discriminate H|..]; injection H as <-; now apply U in H1; lia]. symmetry in E3.
    destruct (B _ _ E3) as [[-> E4]|[-> _]]; [|inversion F as [|? ? [H1|(c & x & H & _ & H1)]]; subst; [now apply U in H1; lia|injection H as <- <-; destruct H1 as [_ H1]; cbn in H1; lia]]. symmetry in E4.
    destruct (B _ _ E4) as [[E5 E6]|[E5 _]].
    + destruct Q as [->|(c & r0 & -> & _ & H & _)]; [discriminate E6|]. injection E6 as _ ->. now destruct H.
    + clear - E5 G. induction G as [|x l H G IH]; [discriminate E5|]. destruct H as (c & r0 & -> & _ & _ & H & _). cbn [List.concat app] in E5. injection E5 as _ E5. destruct r0; [now destruct H|discriminate E5].
  - intros [(l & E & H)|(x & I & H)].
    + destruct l as [|x l]; [discriminate E|]. rewrite between_tails in E. destruct x as [|c x].
      { destruct H as [(y & e & sc & r & vs & es & p & Y & P & _)|(c & r & Y & _)]; [|discriminate Y]. injection Y as <- _. destruct P as [((_ & P) & _)|((_ & P) & _)]; cbn in P; lia. }
      injection E as <- E. symmetry in E. apply app_eq_nil in E. destruct E as [-> E]. destruct l; [|discriminate E].
      destruct H as [(y & e & sc & r & vs & es & p & Y & P & _)|(c & r & Y & _ & K & _)]; [|injection Y as _ <-; now destruct K]. injection Y as <- _. destruct P as [((_ & P) & _)|((_ & P) & _)]; cbn in P; lia.
    + apply same_text_lower in H. apply (f_equal (@List.length BinNums.N)) in H. rewrite !map_length in H. cbn [In grandfathered_tags] in I.
      repeat match type of I with _ \/ _ => destruct I as [<-|I]; [discriminate H|] end. destruct I.
Qed.

(** ** C99: encoded parameters and Content-Disposition *)

Theorem C99_dispositions : reads_as ext_value ext_value_text /\ reads_as content_disposition disposition_text.
Proof. split; (apply read_M; [reflexivity|]); intro nested; [apply n_M, ext_value_V|apply Content_Disposition_M]. Qed.
Print Assumptions C99_dispositions.
Lemma some_of p x : forallb p x && negb (Nat.eqb (List.length x) 0) = true -> all1 p x.
Proof. intro E. apply andb_true_iff in E. destruct E as [F L]. split; [intros ->; discriminate L|]. apply Forall_forall. now apply forallb_forall. Qed.
Lemma hex_digit n c : (n < 10)%N -> c = (48 + n)%N -> any_hex n c.
Proof. intros L ->. left. left. auto. Qed.
Example C99_example : disposition_text (s "attachment; FileName*=UTF-8'en'%e2%82%ac")
  (with_params (named "CaseInsensitive" (s "attachment")) [VTuple [named "CaseInsensitive" (s "FileName*");
     VObj (s "ExtValue") [named "CaseInsensitive" (s "UTF-8"); named "LanguageTag" (s "en"); VBytes [226; 130; 172]%N]]]) [] /\
  utf8_bytes 8364 = [226; 130; 172]%N /\ ~ utf8_text [226; 130]%N.
Proof.
  split; [|split; [reflexivity|rewrite <- utf8_decodes; discriminate]].
  exists (s "attachment"), (s "; FileName*=UTF-8'en'%e2%82%ac"). eexists. split; [reflexivity|]. split; [now apply a_token|]. split; [|reflexivity].
  apply (@one_more disposition_param [] (s " ") (s "FileName*=UTF-8'en'%e2%82%ac") _ [] [] [] []); [constructor|repeat constructor| |constructor].
  exists (s "FileName*"), [], [], (s "UTF-8'en'%e2%82%ac"). eexists. split; [reflexivity|]. split; [now apply a_token|]. split; [constructor|]. split; [constructor|]. split; [reflexivity|]. left. split; [now apply same_text_lower|].
  exists (s "UTF-8"), (s "en"), (s "%e2%82%ac"), (named "LanguageTag" (s "en")), [226; 130; 172]%N. split; [reflexivity|]. split; [now apply some_of|]. split.
  { right. split; [|reflexivity]. left. exists [s "en"]. split; [reflexivity|]. left. exists (s "en"), [], [], [], [], [], []. split; [reflexivity|]. split; [left; split; [now apply a_subtag|]; split; [cbn; lia|constructor]|]. split; [now left|]. split; [now left|]. split; [constructor|]. split; [constructor|now left]. }
  split; [repeat (apply encoded_pct; [reflexivity|reflexivity|]); constructor|]. split.
  { apply (@decodes_pct 14%N 2%N); [right|apply hex_digit; [lia|reflexivity]|apply (@decodes_pct 8%N 2%N); [apply hex_digit; [lia|reflexivity]|apply hex_digit; [lia|reflexivity]|apply (@decodes_pct 10%N 12%N); [right|right|constructor]]]; (split; [lia|reflexivity]). }
  split; [reflexivity|]. right. split; [now apply same_text_lower|]. left. split; [|reflexivity]. now apply utf8_decodes.
Qed.

(** ** C100: who passed a message on, and warnings *)

(** [S'] tells less than [S], of the same strings. *)
Definition loosens (S S' : reading) : Prop :=
  (forall w v cs, S w v cs -> S' w v cs) /\ (forall w, (exists v cs, S' w v cs) -> exists v cs, S w v cs).
Lemma reads_loose x S S' : loosens S S' -> reads_as x S -> reads_as x S'.
Proof.
  intros [H1 H2] R n a w. destruct (R n a w) as (A & B & C). split; [auto|]. split.
  - intro N. apply B. intros (v & cs & H). apply N. eauto.
  - intros r H. destruct (C r H) as (cs & X & P). eauto.
Qed.
Lemma loose_list S S' (shape : list (@part val vcomplaint) -> Prop) : (forall ps qs : list (@part val vcomplaint), Forall2 (fun p q => p_before p = p_before q /\ p_after p = p_after q /\ (p_element p = None <-> p_element q = None)) ps qs -> shape ps -> shape qs) ->
  loosens S S' -> loosens (list_spec S shape) (list_spec S' shape).
Proof.
  intros Sh [H1 H2]. split.
  - intros w v cs (ps & F & Q & R). exists ps. split; [|auto]. revert F. apply Forall_impl. intros p (A & B & C). split; [exact A|]. split; [exact B|]. destruct (p_element p) as [[[x u] c]|]; auto.
  - intros w (v & cs & ps & F & Q & -> & _).
    assert (X : exists qs, Forall (part_ok S) qs /\ Forall2 (fun p q => p_before p = p_before q /\ p_after p = p_after q /\ (p_element p = None <-> p_element q = None)) ps qs /\ map part_text qs = map part_text ps).
    { clear Q Sh. induction F as [|p ps Hp F (qs & A & B & C)]; [exists []; auto|]. destruct p as [b e a]. destruct Hp as (Hb & Ha & He). cbn [p_before p_after p_element] in *. destruct e as [[[x u] c]|].
      - destruct (H2 x) as (u' & c' & E); [eauto|]. exists (Part b (Some (x, u', c')) a :: qs). split; [constructor; [split; [exact Hb|split; [exact Ha|exact E]]|exact A]|]. split; [constructor; [cbn; split; [reflexivity|split; [reflexivity|split; discriminate]]|exact B]|]. cbn [map]. now rewrite C.
      - exists (Part b None a :: qs). split; [constructor; [split; [exact Hb|split; [exact Ha|exact He]]|exact A]|]. split; [constructor; [cbn; tauto|exact B]|]. cbn [map]. now rewrite C. }
    destruct X as (qs & A & B & C). exists (VList (list_values qs)).
    assert (D : some_empty_element qs \/ ~ some_empty_element qs).
    { unfold some_empty_element. destruct (Nat.ltb 1 (List.length qs)) eqn:L; [apply Nat.ltb_lt in L|apply Nat.ltb_ge in L; right; lia].
      destruct (Exists_dec empty_part qs) as [X|X]; [intro p; unfold empty_part; destruct (p_element p); [right; discriminate|now left]|left; auto|right; tauto]. }
    destruct D as [D|D]; eexists; exists qs; (split; [exact A|]); (split; [exact (Sh _ _ B Q)|]); (split; [unfold list_text; now rewrite C|]); (split; [reflexivity|]); [left|right]; auto.
Qed.
Lemma shape_kept (ps qs : list (@part val vcomplaint)) :
  Forall2 (fun p q => p_before p = p_before q /\ p_after p = p_after q /\ (p_element p = None <-> p_element q = None)) ps qs -> list1_shape ps -> list1_shape qs.
Proof.
  intros F (A & B & C). split; [|split].
  - clear B C. induction F as [|p q ps qs (_ & _ & E) F IH]; [inversion A|]. inversion A as [? ? X|? ? X]; subst; [left; unfold empty_part in *; tauto|right; auto].
  - destruct F as [|p q ps qs (E & _) F]; [exact B|]. cbn [trimmed_left] in *. congruence.
  - assert (R : Forall2 (fun p q => p_before p = p_before q /\ p_after p = p_after q /\ (p_element p = None <-> p_element q = None)) (rev ps) (rev qs)).
    { clear - F. induction F as [|p q ps qs E F IH]; [constructor|]. cbn [rev]. apply Forall2_app; [exact IH|]. constructor; [exact E|constructor]. }
    unfold trimmed_right in *. destruct R as [|p q l l' (E1 & E2 & E3) R]; [exact I|]. destruct (p_element p), (p_element q); try congruence; try (now rewrite <- E1); try (now rewrite <- E2); exfalso; intuition discriminate.
Qed.

Lemma loose_date : loosens a_date date_spec.
Proof.
  split.
  - intros w v cs (n & H). eapply HTTP_date_spec, H.
  - intros w (v & cs & f & b & R & W & _). destruct (proj2 (HTTP_date_accepts (fun _ _ => (VBad, [])) w)) as (u & c & H); [eauto|]. exists u, c, (fun _ _ => (VBad, [])). exact H.
Qed.
Lemma loose_warning : loosens (warning_text a_date) (warning_text date_spec).
Proof.
  destruct loose_date as [D1 D2]. split.
  - intros w v cs (code & a & x & rest & t & u & c1 & c2 & H). exists code, a, x, rest, t, u, c1, c2.
    repeat match type of H with _ /\ _ => destruct H as [? H]; split; [assumption|] end. destruct H as [H|(d & E & H)]; [now left|right; exists d; auto].
  - intros w (v & cs & code & a & x & rest & t & u & c1 & c2 & E & H1 & H2 & H3 & H4 & _ & _ & [(R & _)|(d & R & H)]).
    + eexists _, _, code, a, x, rest, t, VNone, c1, []. repeat (split; [eassumption || reflexivity|]). left. auto.
    + destruct (D2 d) as (u' & c' & H'); [eauto|]. eexists _, _, code, a, x, rest, t, u', c1, c'. repeat (split; [eassumption || reflexivity|]). right. eauto.
Qed.

Theorem C100_intermediaries : reads_as Via (list_spec via_text list1_shape) /\ reads_as Warning_ (list_spec (warning_text date_spec) list1_shape).
Proof.
  split.
  - apply (@list_reads (s "Via") true); [reflexivity|intro nested; apply Via_item| |reflexivity]. intros w v cs (p & g & a & rest & pv & u & c1 & c2 & _ & _ & _ & _ & -> & _). split; discriminate.
  - eapply reads_loose; [apply loose_list; [exact shape_kept|exact loose_warning]|].
    apply (@list_reads (s "Warning") true); [reflexivity|intro nested; apply Warning_item| |reflexivity]. intros w v cs (code & a & x & rest & t & u & c1 & c2 & _ & _ & _ & _ & _ & -> & _). split; discriminate.
Qed.
Print Assumptions C100_intermediaries.
Example C100_example :
  via_text (s "1.1 [::1]:80  (a)") (VTuple [VObj (s "Versioned") [VStr (s "HTTP"); VStr (s "1.1")]; VStr (s "[::1]:80"); VStr (s "a")]) [(1014%N, [(s "num", VInt 2)])] /\
  warning_text date_spec (s "110 - ""x""") (VObj (s "WarningValue") [named "WarnCode" (s "110"); VStr (s "-"); VStr (s "x"); VNone]) [] /\
  (forall v cs, ~ warning_text date_spec (s "1100 - ""x""") v cs).
Proof.
  split; [|split].
  - exists (s "1.1"), (s " "), (s "[::1]:80"), (s "  (a)"), (VObj (s "Versioned") [VStr (s "HTTP"); VStr (s "1.1")]), (VStr (s "a")), [], [(1014%N, [(s "num", VInt 2)])].
    split; [reflexivity|]. split; [exists (s "HTTP"), (s "1.1"); split; [reflexivity|]; split; [now apply a_token|left; auto]|]. split; [split; [now apply some_of|left; auto]|]. split.
    { left. exists (s "[::1]"), (s ":80"). split; [reflexivity|]. split; [|right; exists (s "80"); split; [reflexivity|repeat constructor]]. right. exists (s "::1"). split; [reflexivity|]. left. right. exists [], 1, (s "1"). split; [constructor|]. split; [|split; [reflexivity|cbn; lia]]. exists [s "1"]. split; [constructor; [now apply a_group|constructor]|]. left. split; reflexivity. }
    split; [reflexivity|]. split; [reflexivity|]. right. exists (s "  "), (s "(a)"), [(1014%N, [(s "num", VInt 2)])], []. split; [reflexivity|]. split; [split; [now apply some_of|right; split; [discriminate|reflexivity]]|]. split; [|reflexivity].
    exists (s "a"), (s "a"). split; [reflexivity|]. split; [|reflexivity]. apply inside_char; [reflexivity|constructor].
  - exists (s "110"), (s "-"), (s """x"""), [], (VStr (s "x")), VNone, [], []. split; [reflexivity|]. split; [repeat constructor|]. split; [reflexivity|]. split; [right; now apply a_token|]. split; [exists (s "x"""), (s "x"), []; repeat split|]. split; [reflexivity|]. split; [reflexivity|]. left. auto.
  - intros v cs (code & a & x & rest & t & u & c1 & c2 & E & F & L & _). destruct code as [|d1 [|d2 [|d3 [|]]]]; try discriminate L. discriminate E.
Qed.

(** ** C101: conditions, dates and numbers *)

Definition number_text : reading := fun w v cs => all1 is_digit w /\ v = number w /\ cs = [].
Lemma loose_or S1 S2 S1' S2' : loosens S1 S1' -> loosens S2 S2' -> loosens (fun w v cs => S1 w v cs \/ S2 w v cs) (fun w v cs => S1' w v cs \/ S2' w v cs).
Proof. intros [A1 A2] [B1 B2]. split; [intros w v cs [H|H]; auto|]. intros w (v & cs & [H|H]); [destruct (A2 w) as (u & c & X)|destruct (B2 w) as (u & c & X)]; eauto. Qed.
Lemma loose_same S : loosens S S.
Proof. split; auto. Qed.

Theorem C101_conditions :
  reads_as ETag tag_reading /\ reads_as If_Match star_or_tags /\ reads_as If_None_Match star_or_tags /\
  reads_as If_Range (fun w v cs => tag_reading w v cs \/ date_spec w v cs) /\
  reads_as Retry_After (fun w v cs => date_spec w v cs \/ number_text w v cs) /\
  Forall (fun x => reads_as x date_spec) [Date; Last_Modified; Expires; If_Modified_Since; If_Unmodified_Since] /\
  Forall (fun x => reads_as x number_text) [Age; Max_Forwards; Access_Control_Max_Age].
Proof.
  split; [|split; [|split; [|split; [|split; [|split]]]]].
  - apply read_M; [reflexivity|]. intro nested. apply d_seal, n_M, tag_V.
  - apply read_M; [reflexivity|]. intro nested. apply star_or_tags_M.
  - apply read_M; [reflexivity|]. intro nested. apply star_or_tags_M.
  - eapply reads_loose; [apply loose_or; [apply loose_same|apply loose_date]|]. apply read_M; [reflexivity|]. intro nested. apply If_Range_M.
  - eapply reads_loose; [apply loose_or; [apply loose_date|apply loose_same]|]. apply read_M; [reflexivity|]. intro nested. apply Retry_After_M.
  - repeat (constructor; [eapply reads_loose; [apply loose_date|]; (apply read_M; [reflexivity|]); intro nested; apply d_seal, n_M, date_V|]). constructor.
  - repeat (constructor; [(apply read_M; [reflexivity|]); intro nested; first [apply d_seal, n_M, n_digits|apply d_seal, n_M, n_seal; [reflexivity|]; apply n_M, n_digits]|]). constructor.
Qed.
Print Assumptions C101_conditions.
Example C101_example :
  star_or_tags (s "W/""a\"",""""") (VList [VObj (s "EntityTag") [VBool true; VStr (s """a\""")]; VObj (s "EntityTag") [VBool false; VStr (s """""")]]) [(1119%N, [])] /\
  (forall v cs, ~ tag_reading (s "w/""a""") v cs) /\ number_text (s "007") (VInt 7) [] /\ (forall v cs, ~ number_text (s "-1") v cs).
Proof.
  split; [|split; [|split]].
  - right. exists [Part [] (Some (s "W/""a\""", VObj (s "EntityTag") [VBool true; VStr (s """a\""")], [(1119%N, [])])) []; Part [] (Some (s """""", VObj (s "EntityTag") [VBool false; VStr (s """""")], [])) []].
    split; [|split; [split; [left; discriminate|split; reflexivity]|]].
    + constructor; [|constructor; [|constructor]]; (split; [repeat constructor|]); (split; [repeat constructor|]); cbn [p_element].
      * exists (Tag true (s """a\""")). split; [exists (s "a\"); split; [repeat constructor|reflexivity]|]. repeat split.
      * exists (Tag false (s """""")). split; [exists []; split; [constructor|reflexivity]|]. repeat split.
    + split; [reflexivity|]. split; [reflexivity|]. right. split; [|reflexivity]. intros [_ E]. inversion E as [? ? H|? ? H]; subst; [discriminate H|]. inversion H as [? ? H'|? ? H']; subst; [discriminate H'|]. inversion H'.
  - intros v cs ([k o] & (x & _ & O) & E & _). unfold tag_text in E. cbn [tag_weak opaque] in *. destruct k; [discriminate E|]. rewrite O in E. discriminate E.
  - split; [now apply some_of|]. split; reflexivity.
  - intros v cs ((_ & F) & _). inversion F as [|? ? X]. discriminate X.
Qed.

(** ** C102: origins, and fields with few values *)

Definition exactly (l : list string) : reading := as_text (fun w => exists x, In x l /\ w = s x).
Theorem C102_origins :
  reads_as Origin (as_text (fun w => origin_of w \/ w = s "null")) /\
  reads_as Access_Control_Allow_Origin (as_text (fun w => (origin_of w \/ w = s "null") \/ w = s "*")) /\
  reads_as Access_Control_Request_Method (named_token "Method") /\
  reads_as Access_Control_Request_Headers (list_spec (named_token "FieldName") list1_shape) /\
  reads_as Access_Control_Expose_Headers (list_spec (named_token "FieldName") list_shape) /\
  reads_as Access_Control_Allow_Headers (list_spec (named_token "FieldName") list_shape) /\
  reads_as Access_Control_Allow_Methods (list_spec (named_token "Method") list_shape) /\
  reads_as Access_Control_Allow_Credentials (exactly ["true"]) /\
  reads_as Cross_Origin_Resource_Policy (exactly ["same-origin"; "same-site"]) /\
  reads_as X_Content_Type_Options (as_text (same_text "nosniff")) /\
  reads_as Expect (plain (same_text "100-continue") (named "CaseInsensitive")) /\
  reads_as Pragma (list_spec pragma_text list1_shape) /\
  reads_as Alt_Used (as_text host_and_port) /\ reads_as HTTP2_Settings (as_text token68_text).
Proof.
  assert (O : forall nested, textual rec_rules (pyfun nested) origin_or_null (fun w => origin_of w \/ w = s "null")).
  { intro nested. apply textual_seal; [reflexivity|]. apply textual_alt; [apply origin_textual_|apply exactly_textual]. }
  split; [|split; [|split; [|split; [|split; [|split; [|split; [|split; [|split; [|split; [|split; [|split; [|split]]]]]]]]]]]].
  - apply text_reads; [reflexivity|]. intro nested. apply textual_seal; [reflexivity|apply O].
  - apply text_reads; [reflexivity|]. intro nested. apply textual_seal; [reflexivity|]. apply textual_alt; [apply O|]. apply textual_seal; [reflexivity|]. apply (@lit_textual nested "*"). reflexivity.
  - apply read_M; [reflexivity|]. intro nested. apply d_seal, n_M. apply d_nodeV; [reflexivity|apply named_M].
  - apply (@list_reads (s "Access-Control-Request-Headers") true field_name); [reflexivity|intro nested; apply named_M|apply named_value|reflexivity].
  - apply (@list_reads (s "Access-Control-Expose-Headers") true field_name); [reflexivity|intro nested; apply named_M|apply named_value|reflexivity].
  - apply (@list_reads (s "Access-Control-Allow-Headers") true field_name); [reflexivity|intro nested; apply named_M|apply named_value|reflexivity].
  - apply (@list_reads (s "Access-Control-Allow-Methods") true method); [reflexivity|intro nested; apply named_M|apply named_value|reflexivity].
  - apply text_reads; [reflexivity|]. intro nested. apply textual_seal; [reflexivity|]. eapply textual_ext; [apply exactly_textual|]. intro w. split; [intros ->; exists "true"; split; [now left|reflexivity]|intros (x & [<-|[]] & ->); reflexivity].
  - apply text_reads; [reflexivity|]. intro nested. apply textual_seal; [reflexivity|]. eapply textual_ext; [apply textual_alt; apply exactly_textual|]. intro w.
    split; [intros [->| ->]; eexists; (split; [|reflexivity]); cbn; auto|intros (x & [<-|[<-|[]]] & ->); auto].
  - apply text_reads; [reflexivity|]. intro nested. apply textual_seal; [reflexivity|]. apply same_textual.
  - apply read_M; [reflexivity|]. intro nested. apply d_seal, n_M, n_class, same_textual.
  - apply (@list_reads (s "Pragma") true pragma_directive); [reflexivity|intro nested; apply Pragma_item| |reflexivity].
    intros w v cs [(_ & -> & _)|(n & rest & u & _ & _ & _ & -> & _)]; split; discriminate.
  - apply text_reads; [reflexivity|]. intro nested. apply textual_seal; [reflexivity|]. apply host_port_textual.
  - apply text_reads; [reflexivity|]. intro nested. apply textual_seal; [reflexivity|]. apply token68_textual.
Qed.
Print Assumptions C102_origins.
Example C102_example : origin_of (s "https://example.com:8080") /\ ~ origin_of (s "https:/example.com") /\ ~ exactly ["true"] (s "True") (VStr (s "True")) [] /\
  pragma_text (s "X=""a b""") (VObj (s "Parametrized") [VStr (s "X"); VStr (s "a b")]) [] /\ pragma_text (s "No-Cache") (named "CaseInsensitive" (s "No-Cache")) [].
Proof.
  split; [|split; [|split; [|split]]].
  - exists (s "https"), (s "example.com:8080"). split; [reflexivity|]. split; [exists 104%N, (s "ttps"); split; [reflexivity|]; split; [reflexivity|repeat constructor]|].
    exists (s "example.com"), (s ":8080"). split; [reflexivity|]. split; [left; repeat (apply encoded_char; [reflexivity|]); constructor|]. right. exists (s "8080"). split; [reflexivity|repeat constructor].
  - intros (x & h & E & _). do 7 (destruct x as [|? x]; [discriminate E|]; injection E as _ E). do 13 (destruct x as [|? x]; [try discriminate E|]; [..|first [discriminate E|injection E as _ E]]). 
  - intros ((x & [<-|[]] & E) & _). discriminate E.
  - right. exists (s "X"), (s "=""a b"""), (VStr (s "a b")). split; [reflexivity|]. split; [now apply a_token|]. split; [intro H; apply same_text_lower in H; discriminate H|]. split; [reflexivity|]. right. exists (s """a b"""). split; [reflexivity|]. right. exists (s "a b"""), (s "a b"), []. repeat split.
  - left. split; [now apply same_text_lower|split; reflexivity].
Qed.

(** ** C103: notices to silence, nodes, scopes and relation types *)

Theorem C103_silence : reads_as HTTPolice_Silence (list_spec silence_text list_shape).
Proof.
  apply (@list_reads (s "HTTPolice-Silence") true); [reflexivity|intro nested; apply Silence_item| |reflexivity]. intros w v cs (n & rest & u & _ & _ & -> & _). split; discriminate.
Qed.
Print Assumptions C103_silence.
Example C103_example : silence_text (s "1089  RESP") (VTuple [VInt 1089; VBool true]) [(1014%N, [(s "num", VInt 2)])] /\ silence_text (s "7") (VTuple [VInt 7; VNone]) [].
Proof.
  split.
  - exists (s "1089"), (s "  RESP"), (VBool true). split; [reflexivity|]. split; [now apply some_of|]. split; [reflexivity|]. right. exists (s "  "), (s "RESP"). split; [reflexivity|]. split; [split; [now apply some_of|right; split; [discriminate|reflexivity]]|]. split; [now apply same_text_lower|reflexivity].
  - exists (s "7"), [], VNone. split; [reflexivity|]. split; [now apply some_of|]. split; [reflexivity|]. left. auto.
Qed.

Theorem C104_nodes_and_relations : reads_as node_7239 node_text /\ reads_as scope scope_text /\ reads_as rel rel_text /\
  reads_as hreflang language_tag_text /\ reads_as anchor (as_text reference_text).
Proof.
  split; [|split; [|split; [|split]]]; (apply read_M; [reflexivity|]); intro nested; [apply node_M|apply scope_M|apply rel_M|apply d_seal, n_M, Language_Tag_V|].
  apply d_seal, n_M, n_text, reference_textual.
Qed.
Print Assumptions C104_nodes_and_relations.
Example C104_example : node_text (s "[::1]:_a") (VTuple [VStr (s "::1"); VStr (s "_a")]) [] /\ node_text (s "192.0.2.255:00080") (VTuple [VStr (s "192.0.2.255"); VInt 80]) [] /\
  (forall v, ~ node_port_text (s "123456") v) /\
  scope_text (s "a b") (VList [VStr (s "a"); VStr (s "b")]) [] /\ rel_text (s "next  http://a/b") (VList [named "CaseInsensitive" (s "next"); VStr (s "http://a/b")]) [] /\ ~ registered_rel (s "Next").
Proof.
  split; [|split; [|split; [|split; [|split]]]].
  - exists (s "[::1]"), (s ":_a"), (VStr (s "::1")), (VStr (s "_a")). split; [reflexivity|]. split; [right; exists (s "::1"); split; [reflexivity|]; split; [|reflexivity]|].
    { right. exists [], 1, (s "1"). split; [constructor|]. split; [|split; [reflexivity|cbn; lia]]. exists [s "1"]. split; [constructor; [now apply a_group|constructor]|]. left. split; reflexivity. }
    split; [reflexivity|]. split; [reflexivity|]. right. exists (s "_a"). split; [reflexivity|]. right. split; [|reflexivity]. exists (s "a"). split; [reflexivity|now apply some_of].
  - exists (s "192.0.2.255"), (s ":00080"), (VStr (s "192.0.2.255")), (VInt 80). split; [reflexivity|]. split; [left; split; [left; exact an_address|reflexivity]|]. split; [reflexivity|]. split; [reflexivity|]. right. exists (s "00080"). split; [reflexivity|]. left. split; [now apply a_subtag|reflexivity].
  - intros v [((_ & L) & _)|((x & E & _) & _)]; [cbn in L; lia|discriminate E].
  - exists [s "a"; s "b"]. split; [reflexivity|]. split; [discriminate|]. split; [repeat (constructor; [now apply some_of|]); constructor|]. split; reflexivity.
  - exists (s "next"), (s "  http://a/b"), (named "CaseInsensitive" (s "next")), [VStr (s "http://a/b")], []. split; [reflexivity|]. split; [split; [reflexivity|]; left; split; [|reflexivity]; exists 110%N, (s "ext"); split; [reflexivity|]; split; [reflexivity|repeat constructor]|]. split; [|reflexivity].
    apply (@part_after spaces rel_type (s "  ") [] (s "http://a/b") (VStr (s "http://a/b")) [] [] [] []); [split; [now apply some_of|reflexivity]| |constructor].
    split; [reflexivity|]. right. split; [|reflexivity]. exists (s "http://a/b"), []. split; [reflexivity|]. split; [|now left].
    exists (s "http"), (s "//a/b"), []. split; [reflexivity|]. split; [exists 104%N, (s "ttp"); split; [reflexivity|]; split; [reflexivity|repeat constructor]|]. split; [|now left].
    exists (s "//a"), (s "/b"). split; [reflexivity|]. split; [repeat (apply encoded_char; [reflexivity|]); constructor|]. left. split; [|right; exists (s "b"); reflexivity]. exists (s "a"). split; [reflexivity|]. exists [], (s "a"). split; [reflexivity|]. split; [now left|].
    exists (s "a"), []. split; [reflexivity|]. split; [left; apply encoded_char; [reflexivity|constructor]|now left].
  - intros (c & x & E & L & _). injection E as <- _. discriminate L.
Qed.
