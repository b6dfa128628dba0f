(** C08 - C13, C58: the grammar combinators and some symbols built with them. *)
From Coq Require Import ZifyBool ZifyNat ZifyN Permutation String.
From Verif Require Import Base Earley EarleySpec EarleyChart EarleyMain Parse P_Earley Grammar GrammarSem GrammarLang GrammarWF GrammarVals GrammarExcl
  GrammarCalc GrammarRend Syntax Actions Reading HttpText HttpDate SyntaxVals SyntaxLists SyntaxDates SyntaxTags DateUnique.
Open Scope nat_scope.
Open Scope list_scope.
Unset Strict Implicit.

(** ** The language of a symbol, as seen through [parse()] *)

(** [parse(w, x)] gives a result exactly on the strings of [L], and raises
    [ParseError] on all others. *)
Definition language_is (x : symbol) (L : language) : Prop :=
  forall nested annotated w,
  ((exists r, reads nested annotated x w (Accepted r)) <-> L w) /\
  ((exists e, reads nested annotated x w (Rejected e)) <-> ~ L w).

Lemma language_lang x L : is_proper x -> language_is x L <-> forall w, lang rec_rules x w <-> L w.
Proof.
  intro P.
  assert (N : forall w, lang rec_rules (as_nonterminal x) w <-> lang rec_rules x w).
  { intro w. destruct x; try reflexivity. cbn [as_nonterminal as_rules]. apply lang_wrapped. }
  assert (D : forall w, lang rec_rules (as_nonterminal x) w <-> @generates HG (as_nonterminal x) w).
  { intro w. rewrite lang_nt by (destruct x; reflexivity). reflexivity. }
  assert (C : forall nested annotated w,
    (lang rec_rules x w <-> exists r, reads nested annotated x w (Accepted r)) /\
    (~ lang rec_rules x w <-> exists e, reads nested annotated x w (Rejected e))).
  { intros nested annotated w. rewrite <- (N w), (D w). unfold reads. apply C01_parser_accepts_language. now apply proper_wf. }
  split.
  - intros H w. destruct (H (fun _ _ => (VBad, [])) (fun _ => false) w) as [H1 _]. destruct (C (fun _ _ => (VBad, [])) (fun _ => false) w) as [C1 _].
    now rewrite C1.
  - intros H nested annotated w. destruct (C nested annotated w) as [C1 C2]. rewrite <- (H w). split; symmetry; assumption.
Qed.

Ltac use H := apply (proj1 (language_lang _ H)).

(** ** C09: the combinators *)

Theorem C09_product : forall x y K L, is_proper x -> is_proper y -> language_is x K -> language_is y L ->
  is_proper (seq2 x y) /\ language_is (seq2 x y) (fun w => exists u v, w = u ++ v /\ K u /\ L v).
Proof.
  intros x y K L Px Py Hx Hy. assert (P : is_proper (seq2 x y)) by (now apply proper_seq). split; [exact P|]. apply language_lang; [exact P|].
  rewrite language_lang in Hx, Hy by assumption. intro w. rewrite lang_seq. now apply cat_ext.
Qed.
Print Assumptions C09_product.

Theorem C09_union : forall x y K L, is_proper x -> is_proper y -> language_is x K -> language_is y L ->
  is_proper (alt x y) /\ language_is (alt x y) (fun w => K w \/ L w).
Proof.
  intros x y K L Px Py Hx Hy. assert (P : is_proper (alt x y)) by (now apply proper_alt). split; [exact P|]. apply language_lang; [exact P|].
  rewrite language_lang in Hx, Hy by assumption. intro w. now rewrite lang_alt, (Hx w), (Hy w).
Qed.
Print Assumptions C09_union.

(** [f << x] and a name do not change the language. *)
Theorem C09_function_and_name : forall x L, is_proper x -> language_is x L ->
  (forall f, is_proper (wrap f x) /\ language_is (wrap f x) L) /\
  (forall name pivot, is_proper (seal name pivot x) /\ language_is (seal name pivot x) L).
Proof.
  intros x L Px Hx. rewrite language_lang in Hx by assumption. split; intros; (match goal with |- is_proper ?y /\ _ => assert (P : is_proper y) end).
  - now apply proper_wrap.
  - split; [exact P|]. apply language_lang; [exact P|]. intro w. now rewrite lang_wrap.
  - now apply proper_seal.
  - split; [exact P|]. apply language_lang; [exact P|]. intro w. now rewrite lang_seal.
Qed.
Print Assumptions C09_function_and_name.

Theorem C09_optional : forall x default L, is_proper x -> language_is x L ->
  is_proper (maybe x default) /\ language_is (maybe x default) (fun w => L w \/ w = []).
Proof.
  intros x d L Px Hx. assert (P : is_proper (maybe x d)) by (now apply proper_maybe). split; [exact P|]. apply language_lang; [exact P|].
  rewrite language_lang in Hx by assumption. intro w. now rewrite lang_maybe, (Hx w).
Qed.
Print Assumptions C09_optional.

(** [pow n L]: [n] strings of [L] one after another. *)
Lemma pow_parts n L w : pow n L w <-> exists ws, List.length ws = n /\ Forall L ws /\ w = List.concat ws.
Proof.
  revert w. induction n as [|n IH]; intro w; cbn [pow].
  - split; [intros ->; exists []; auto|]. intros [ws [E [_ ->]]]. destruct ws; [reflexivity|discriminate].
  - split.
    + intros [u [v [-> [Hu Hv]]]]. apply IH in Hv. destruct Hv as [ws [<- [F ->]]]. exists (u :: ws). auto.
    + intros [[|u ws] [E [F ->]]]; [discriminate|]. inversion F; subst. injection E as E. exists u, (List.concat ws). repeat split; auto. apply IH. eauto.
Qed.

Theorem C09_repetition : forall x L least most, is_proper x -> language_is x L ->
  most <> Some 0 -> match most with Some m => least <= m | None => True end ->
  let copies := fun w => exists ws, least <= List.length ws /\ match most with Some m => List.length ws <= m | None => True end /\
                         Forall L ws /\ w = List.concat ws in
  (is_proper (times least most x) /\ language_is (times least most x) copies) /\
  (is_proper (string_times least most x) /\ language_is (string_times least most x) copies).
Proof.
  intros x L least most Px Hx N0 LE copies. assert (P : is_proper (times least most x)) by (now apply proper_times).
  rewrite language_lang in Hx by assumption.
  assert (Q : language_is (times least most x) copies).
  { apply language_lang; [exact P|]. intro w. rewrite lang_times by assumption. unfold copies. split.
    - intros [n [[C1 C2] H]]. apply (pow_ext n Hx), pow_parts in H. destruct H as [ws [<- [F ->]]]. exists ws. auto.
    - intros [ws [C1 [C2 [F ->]]]]. exists (List.length ws). split; [split; auto|]. apply (pow_ext _ Hx), pow_parts. eauto. }
  split; [split; assumption|]. apply (proj1 (C09_function_and_name P Q)).
Qed.
Print Assumptions C09_repetition.

(** [many], [many1], [string], [string1] are its instances. *)
Theorem C09_many : forall x L, is_proper x -> language_is x L ->
  language_is (many x) (fun w => exists ws, Forall L ws /\ w = List.concat ws) /\
  language_is (string_ x) (fun w => exists ws, Forall L ws /\ w = List.concat ws) /\
  language_is (many1 x) (fun w => exists ws, ws <> [] /\ Forall L ws /\ w = List.concat ws) /\
  language_is (string1 x) (fun w => exists ws, ws <> [] /\ Forall L ws /\ w = List.concat ws).
Proof.
  intros x L P H.
  destruct (@C09_repetition x L 0 None P H ltac:(discriminate) I) as [[P1 H1] [P2 H2]].
  destruct (@C09_repetition x L 1 None P H ltac:(discriminate) I) as [[P3 H3] [P4 H4]].
  assert (E : forall y K K', (forall w, K w <-> K' w) -> language_is y K -> language_is y K').
  { intros y K K' EK HK nested annotated w. now rewrite <- (EK w). }
  assert (E0 : forall w, (exists ws, 0 <= List.length ws /\ True /\ Forall L ws /\ w = List.concat ws) <-> (exists ws, Forall L ws /\ w = List.concat ws)).
  { intro w. split; intros [ws X]; exists ws; [tauto|]. split; [lia|tauto]. }
  assert (E1 : forall w, (exists ws, 1 <= List.length ws /\ True /\ Forall L ws /\ w = List.concat ws) <-> (exists ws, ws <> [] /\ Forall L ws /\ w = List.concat ws)).
  { intro w. split; intros [ws X]; exists ws.
    - destruct X as [X1 [_ X2]]. split; [destruct ws; [cbn in X1; lia|discriminate]|exact X2].
    - destruct X as [X1 X2]. split; [destruct ws; [congruence|cbn; lia]|]. auto. }
  split; [|split; [|split]]; (eapply E; [|eassumption]); auto.
Qed.
Print Assumptions C09_many.

(** [literal(t)] ignores the case of ASCII letters; [case_sens(t)] does not. *)
Definition same_letter (c d : N) : Prop :=
  c = d \/ (is_alpha c = true /\ is_alpha d = true /\ (d = c + 32 \/ c = d + 32)%N).

Lemma same_letter_spec c d : same_c false c d <-> same_letter c d.
Proof. unfold same_c, same_letter, lower_c, is_alpha. destruct ((65 <=? d) && (d <=? 90))%N eqn:E1, ((65 <=? c) && (c <=? 90))%N eqn:E2; lia. Qed.

Theorem C09_literal : forall t,
  is_proper (literal t) /\ language_is (literal t) (Forall2 same_letter t) /\
  is_proper (case_sens t) /\ language_is (case_sens t) (fun w => w = t).
Proof.
  intro t. assert (P1 : is_proper (literal t)) by apply proper_literal. assert (P2 : is_proper (case_sens t)) by apply proper_literal.
  split; [exact P1|]. split; [|split; [exact P2|]]; (apply language_lang; [assumption|]); intro w; unfold literal, case_sens; rewrite lang_literal.
  - assert (X : forall t w, Forall2 (same_c false) t w <-> Forall2 same_letter t w); [|apply X].
    clear. intros t w. split; (induction 1; constructor; [now apply same_letter_spec|assumption]).
  - clear. split.
    + intro F. induction F as [|c d t' w' H _ IH]; [reflexivity|]. cbn in H. congruence.
    + intros ->. induction t as [|c t IH]; constructor; [reflexivity|exact IH].
Qed.
Print Assumptions C09_literal.

(** Sets of octets. *)
Theorem C09_octets :
  (forall lo hi, (lo <= hi)%N -> language_is (octet_range lo hi) (fun w => exists c, w = [c] /\ (lo <= c <= hi)%N)) /\
  (forall c, language_is (octet c) (fun w => w = [c])) /\
  (forall n b n' b' K L, language_is (Term n b) K -> language_is (Term n' b') L ->
     language_is (minus (Term n b) (Term n' b')) (fun w => K w /\ ~ L w)).
Proof.
  split; [|split].
  - intros lo hi H. apply language_lang; [reflexivity|]. intro w. rewrite lang_octet_range by lia. split; intros [c [-> E]]; exists c; (split; [reflexivity|]); lia.
  - intro c. apply language_lang; [reflexivity|]. intro w. apply lang_octet.
  - intros n b n' b' K L HK HL. rewrite language_lang in HK, HL by reflexivity. apply language_lang; [reflexivity|]. intro w.
    rewrite lang_minus, <- (HK w), <- (HL w), !lang_term. cbn [bits_of]. split.
    + intros [c [-> [H1 H2]]]. split; [eauto|]. intros [d [E X]]. injection E as <-. congruence.
    + intros [[c [-> H1]] H2]. exists c. repeat split; auto. apply not_true_iff_false. intro X. apply H2. eauto.
Qed.
Print Assumptions C09_octets.

(** [times(0, 0, x)] does not follow the documentation: it takes a copy. *)
Theorem C09_no_copies_refuted :
  ~ (forall x L, is_proper x -> language_is x L -> language_is (times 0 (Some 0) x) (fun w => w = [])).
Proof.
  intro H. specialize (H (octet 65) (fun w => w = [65%N]) eq_refl (proj1 (proj2 C09_octets) 65%N)).
  rewrite language_lang in H by reflexivity. specialize (H [65%N]). rewrite times_0_0, lang_octet in H. destruct H as [H _].
  discriminate (H (or_intror eq_refl)).
Qed.
Print Assumptions C09_no_copies_refuted.

(** [(a|b)*] with a bound, and a name. *)
Example C09_example : language_is (seal (s "x") true (times 1 (Some 2) (seq2 (literal (s "a")) (octet 48)))) (fun w =>
  exists ws, 1 <= List.length ws /\ List.length ws <= 2 /\
    Forall (fun w => exists u v, w = u ++ v /\ Forall2 same_letter (s "a") u /\ v = [48%N]) ws /\ w = List.concat ws).
Proof.
  pose proof (@C09_product (literal (s "a")) (octet 48) _ _ eq_refl eq_refl (proj1 (proj2 (C09_literal (s "a")))) (proj1 (proj2 C09_octets) 48%N)) as [P H].
  pose proof (@C09_repetition _ _ 1 (Some 2) P H ltac:(discriminate) (le_S _ _ (le_n 1))) as [[P2 H2] _].
  apply (proj2 (C09_function_and_name P2 H2)).
Qed.

(** ** C08: [string_excluding] *)

(** Every character is in the set, or ends a part of the string with which (up
    to the case of letters) one of the words begins. *)
Theorem C08_string_excluding : forall n b words,
  reads_text (string_excluding (Term n b) words) (fun w =>
    (forall x c y, w = x ++ c :: y -> N.testbit b c = true \/
       exists begins ends, In (begins ++ ends) words /\ Forall2 same_letter begins (x ++ [c])) /\
    ~ exists x, In x words /\ Forall2 same_letter x w).
Proof.
  intros n b words. apply reads_text_intro; [apply proper_excluding|]. intro nested.
  eapply textual_ext; [apply string_excluding_any|].
  intro w. unfold excluding_any, spells.
  assert (E : forall x w, map lower_c x = map lower_c w <-> Forall2 same_letter x w).
  { clear. induction x as [|c x IH]; intros [|d w]; cbn [map]; split; intro H; try discriminate; try (inversion H; fail); try constructor.
    - injection H as H1 H2. apply same_letter_spec. unfold same_c. congruence.
    - injection H as H1 H2. now apply IH.
    - inversion H as [|? ? ? ? H1 H2]; subst. apply same_letter_spec in H1. unfold same_c in H1. apply IH in H2. congruence. }
  split; intros [H1 H2]; (split; [intros x c y K; destruct (H1 x c y K) as [A|(e & t & I & A)]; [now left|right; exists e, t; split; [exact I|now apply E]]|]).
  + intros [x [I F]]. apply (H2 x I). now apply E.
  + intros x I F. apply H2. exists x. split; [exact I|]. now apply E.
Qed.
Print Assumptions C08_string_excluding.

(** The words are spelled with characters of the set, in either case: then
    the result is [string(t)] minus the words. *)
Definition spelled_in (in_set : N -> bool) (words : list str) : Prop :=
  forall x c d, In x words -> In c x -> same_letter c d -> in_set d = true.

Theorem C08_string_excluding_spelled : forall n b words, spelled_in (N.testbit b) words ->
  reads_text (string_excluding (Term n b) words) (fun w =>
    Forall (fun c => N.testbit b c = true) w /\ ~ exists x, In x words /\ Forall2 same_letter x w).
Proof.
  intros n b words C. apply reads_text_intro; [apply proper_excluding|]. intro nested.
  eapply textual_ext; [apply string_excluding_textual|].
  - intros x c Ix Ic. split; apply (C x c _ Ix Ic); apply same_letter_spec; unfold same_c; apply lower_cases; auto.
  - intro w. unfold excluding_lang, all_in.
    assert (E : forall x w, map lower_c x = map lower_c w <-> Forall2 same_letter x w).
    { clear. induction x as [|c x IH]; intros [|d w]; cbn [map]; split; intro H; try discriminate; try (inversion H; fail); try constructor.
      - injection H as H1 H2. apply same_letter_spec. unfold same_c. congruence.
      - injection H as H1 H2. now apply IH.
      - inversion H as [|? ? ? ? H1 H2]; subst. apply same_letter_spec in H1. unfold same_c in H1. apply IH in H2. congruence. }
    split; intros [H1 H2]; (split; [exact H1|]).
    + intros [x [I F]]. apply (H2 x I). now apply E.
    + intros x I F. apply H2. exists x. split; [exact I|]. now apply E.
Qed.
Print Assumptions C08_string_excluding_spelled.

Lemma reads_text_ext x (L L' : language) : (forall w, L w <-> L' w) -> reads_text x L -> reads_text x L'.
Proof.
  intros E H nested annotated w. destruct (H nested annotated w) as (A & B & C). repeat split.
  - intros (v & cs & K & V). apply A. exists v, cs. rewrite E. auto.
  - intro N. apply B. intros (v & cs & K & V). apply N. exists v, cs. rewrite <- E. auto.
  - intros r R. destruct (C r R) as (cs & (K & V) & P). exists cs. rewrite <- E. auto.
Qed.

(** All words excluded in httpolice/syntax are excluded from tokens, by
    [token__excluding], and are tokens. *)
Theorem C08_http_symbols : forall exclude, Forall (fun x => Forall (fun c => is_tchar c = true) (s x)) exclude ->
  reads_text (token__excluding exclude) (fun w =>
    w <> [] /\ Forall (fun c => is_tchar c = true) w /\ ~ exists x, In x exclude /\ Forall2 same_letter (s x) w).
Proof.
  intros exclude H.
  assert (C : spelled_in (N.testbit (bits_of tchar)) ([] :: map s exclude)).
  { intros x c d [<-|I] Ic L; [destruct Ic|]. rewrite tchar_bits. apply in_map_iff in I. destruct I as (y & <- & I). rewrite Forall_forall in H. specialize (H y I).
    rewrite Forall_forall in H. specialize (H c Ic). destruct L as [<-|[_ [L _]]]; [exact H|]. unfold is_tchar. rewrite L. now rewrite orb_true_r. }
  pose proof (@C08_string_excluding_spelled (Some (s "tchar")) (bits_of tchar) ([] :: map s exclude) C) as K.
  assert (E : forall w, (Forall (fun c => N.testbit (bits_of tchar) c = true) w /\ ~ (exists x, In x ([] :: map s exclude) /\ Forall2 same_letter x w)) <->
     (w <> [] /\ Forall (fun c => is_tchar c = true) w /\ ~ exists x, In x exclude /\ Forall2 same_letter (s x) w)).
  { intro w. assert (F : Forall (fun c => N.testbit (bits_of tchar) c = true) w <-> Forall (fun c => is_tchar c = true) w) by (rewrite !Forall_forall; split; intros X c I; specialize (X c I); now rewrite tchar_bits in *).
    rewrite F. split.
    - intros [A B]. split; [intros ->; apply B; exists []; split; [now left|constructor]|]. split; [exact A|]. intros (x & I & M). apply B. exists (s x). split; [right; now apply in_map|exact M].
    - intros (A & B & D). split; [exact B|]. intros (x & [<-|I] & M); [inversion M; congruence|]. apply in_map_iff in I. destruct I as (y & <- & I). apply D. eauto. }
  exact (reads_text_ext E K).
Qed.
Print Assumptions C08_http_symbols.
(** The lists in the code. *)
Example C08_http_example : Forall (fun exclude => Forall (fun x => Forall (fun c => is_tchar c = true) (s x)) exclude)
  [["q"%string]; built_in_codings; built_in_codings ++ ["trailers"%string]; []; ["bytes"%string]; ["no-cache"%string]; ["filename"%string; "filename*"%string]].
Proof. repeat constructor. Qed.

(** Without that condition it is false: a string that only begins like an
    excluded word is accepted though a character of it is not in the set. *)
Theorem C08_string_excluding_refuted :
  ~ (forall n b words, reads_text (string_excluding (Term n b) words) (fun w =>
    Forall (fun c => N.testbit b c = true) w /\ ~ exists x, In x words /\ Forall2 same_letter x w)).
Proof.
  intro H. specialize (H None (bits_of (octet 65)) [s "-A"]).
  destruct (H (fun _ _ => (VBad, [])) (fun _ => false) (s "-")) as [_ [R _]].
  destruct R as [e R]. { intros [v [cs [[F _] _]]]. inversion F as [|? ? X _]; subst. vm_compute in X. discriminate X. }
  assert (A : exists r, reads (fun _ _ => (VBad, [])) (fun _ => false) (string_excluding (Term None (bits_of (octet 65))) [s "-A"]) (s "-") (Accepted r)).
  { eexists. exists 200. vm_compute. reflexivity. }
  destruct A as [r A]. pose proof (returns_unique R A) as E. discriminate E.
Qed.
Print Assumptions C08_string_excluding_refuted.

(** The parameter names that are excluded in the code are such words. *)
Example C08_example : spelled_in (N.testbit (bits_of tchar)) [s "q"; s "chunked"; s "gzip"] /\
  (~ exists x, In x [s "q"; s "chunked"; s "gzip"] /\ Forall2 same_letter x (s "chunky")) /\
  (exists x, In x [s "q"; s "chunked"; s "gzip"] /\ Forall2 same_letter x (s "GZip")).
Proof.
  split; [|split].
  - intros x c d I Ic L. rewrite tchar_bits.
    assert (A : is_alpha c = true).
    { assert (X : forallb (forallb is_alpha) [s "q"; s "chunked"; s "gzip"] = true) by reflexivity.
      rewrite forallb_forall in X. specialize (X _ I). rewrite forallb_forall in X. auto. }
    unfold is_tchar. assert (is_alpha d = true) by (destruct L as [<-|L]; [exact A|tauto]). rewrite H. now rewrite orb_true_r.
  - intros [x [I F]]. destruct I as [<-|[<-|[<-|[]]]]; repeat (match goal with H : Forall2 _ _ _ |- _ => inversion H; clear H; subst end; unfold same_letter, is_alpha in *; try lia).
  - exists (s "gzip"). split; [simpl; auto|]. repeat constructor; unfold same_letter, is_alpha; try (left; reflexivity); right; lia.
Qed.

(** ** C10: lists *)

(** [element] has this meaning, by every reading of a string. *)
Definition means_as (x : symbol) (spec : str -> val -> list vcomplaint -> Prop) : Prop :=
  forall nested w v cs, M rec_rules (pyfun nested) x w v cs <-> exists cs', spec w v cs' /\ Permutation cs cs'.

(** Notice 1151: there are empty elements.  A list of one empty part is the
    empty string. *)
Definition some_empty_element (ps : list (@part val vcomplaint)) : Prop := 1 < List.length ps /\ Exists empty_part ps.
Definition list_spec (element : str -> val -> list vcomplaint -> Prop) (shape : list (@part val vcomplaint) -> Prop)
  (w : str) (v : val) (cs : list vcomplaint) : Prop :=
  exists ps, Forall (part_ok element) ps /\ shape ps /\ w = list_text ps /\ v = VList (list_values ps) /\
    ((some_empty_element ps /\ cs = list_complaints ps ++ [(1151%N, [])]) \/
     (~ some_empty_element ps /\ cs = list_complaints ps)).
(** Any number of elements; blanks may follow the last comma or element. *)
Definition list_shape (ps : list (@part val vcomplaint)) : Prop := ps <> [] /\ trimmed_left ps.
(** At least one element; no blanks at the end. *)
Definition list1_shape (ps : list (@part val vcomplaint)) : Prop :=
  Exists (fun p => ~ empty_part p) ps /\ trimmed_left ps /\ trimmed_right ps.

Lemma notice_spec (ps : list (@part val vcomplaint)) cs :
  cs = list_complaints ps ++ list_notice ps <->
  ((some_empty_element ps /\ cs = list_complaints ps ++ [(1151%N, [])]) \/ (~ some_empty_element ps /\ cs = list_complaints ps)).
Proof.
  assert (E : some_empty ps = true <-> some_empty_element ps).
  { unfold some_empty, some_empty_element. rewrite andb_true_iff, Nat.ltb_lt, existsb_exists, Exists_exists. unfold empty_part.
    split; intros [L [p [I X]]]; (split; [exact L|]); exists p; (split; [exact I|]); destruct (p_element p); congruence || reflexivity. }
  unfold list_notice. destruct (some_empty ps) eqn:X.
  - assert (Y : some_empty_element ps) by (now apply E). tauto.
  - assert (Y : ~ some_empty_element ps) by (rewrite <- E; discriminate). rewrite app_nil_r. tauto.
Qed.

(** The same, with the given meaning of the functions that parse again. *)
Definition means_in (nested : pyf -> list val -> val * list vcomplaint) (x : symbol) (spec : str -> val -> list vcomplaint -> Prop) : Prop :=
  forall w v cs, M rec_rules (pyfun nested) x w v cs <-> exists cs', spec w v cs' /\ Permutation cs cs'.

Lemma parts_perm R e nested (ps : list (@part val vcomplaint)) : means_in nested e R -> Forall (part_ok (M rec_rules (pyfun nested) e)) ps ->
  exists qs, Forall (part_ok R) qs /\ list_text qs = list_text ps /\ list_values qs = list_values ps /\
    Permutation (list_complaints ps) (list_complaints qs) /\ List.length qs = List.length ps /\
    (Exists empty_part ps <-> Exists empty_part qs) /\ (Exists (fun p => ~ empty_part p) ps <-> Exists (fun p => ~ empty_part p) qs) /\
    (trimmed_left ps <-> trimmed_left qs) /\ (trimmed_right ps <-> trimmed_right qs) /\ (ps <> [] <-> qs <> []).
Proof.
  intros H F.
  assert (X : exists qs, Forall (part_ok R) qs /\ Forall2 (fun p q : @part val vcomplaint => p_before p = p_before q /\ p_after p = p_after q /\
    match p_element p, p_element q with
    | Some (w, v, cs), Some (w', v', cs') => w = w' /\ v = v' /\ Permutation cs cs'
    | None, None => True
    | _, _ => False
    end) ps qs).
  { induction F as [|[b x a] ps O F [qs [IH1 IH2]]]; [exists []; auto|]. destruct O as [O1 [O2 O3]]. destruct x as [[[w v] cs]|]; cbn [p_before p_after p_element] in *.
    - apply H in O3. destruct O3 as [cs' [O3 P]]. exists (Part b (Some (w, v, cs')) a :: qs). split; constructor; auto; repeat split; auto.
    - exists (Part b None a :: qs). split; constructor; auto; repeat split; auto. }
  destruct X as [qs [Fq X]]. exists qs. split; [exact Fq|].
  assert (Y : forall p q : @part val vcomplaint, p_before p = p_before q /\ p_after p = p_after q /\
    match p_element p, p_element q with
    | Some (w, v, cs), Some (w', v', cs') => w = w' /\ v = v' /\ Permutation cs cs'
    | None, None => True
    | _, _ => False
    end -> part_text p = part_text q /\ (empty_part p <-> empty_part q) /\
      (match p_element p with Some (_, v, _) => [v] | None => [] end = match p_element q with Some (_, v, _) => [v] | None => [] end) /\
      Permutation (match p_element p with Some (_, _, cs) => cs | None => [] end) (match p_element q with Some (_, _, cs) => cs | None => [] end)).
  { intros p q [E1 [E2 E3]]. unfold part_text, empty_part. rewrite E1, E2. destruct (p_element p) as [[[w v] cs]|], (p_element q) as [[[w' v'] cs']|]; try contradiction.
    - destruct E3 as [-> [-> P]]. repeat split; auto; discriminate.
    - repeat split; auto. }
  split; [|split; [|split; [|split; [|split; [|split; [|split; [|split]]]]]]].
  - unfold list_text. f_equal. clear -X Y. induction X as [|p q ps qs XY _ IH]; [reflexivity|]. cbn [map]. apply Y in XY. destruct XY as [-> _]. now rewrite IH.
  - unfold list_values. clear -X Y. induction X as [|p q ps qs XY _ IH]; [reflexivity|]. cbn [flat_map]. apply Y in XY. destruct XY as [_ [_ [-> _]]]. now rewrite IH.
  - unfold list_complaints. clear -X Y. induction X as [|p q ps qs XY _ IH]; [constructor|]. cbn [flat_map]. apply Y in XY. destruct XY as [_ [_ [_ P]]]. now apply Permutation_app.
  - clear -X. induction X; cbn; congruence.
  - clear -X Y. induction X as [|p q ps qs XY _ IH]; [reflexivity|]. apply Y in XY. destruct XY as [_ [E _]]. rewrite !Exists_cons. tauto.
  - clear -X Y. induction X as [|p q ps qs XY _ IH]; [reflexivity|]. apply Y in XY. destruct XY as [_ [E _]]. rewrite !Exists_cons. tauto.
  - destruct X as [|p q ps qs XY _]; [reflexivity|]. cbn. destruct XY as [-> _]. reflexivity.
  - unfold trimmed_right. assert (Z : Forall2 (fun p q : @part val vcomplaint => p_before p = p_before q /\ p_after p = p_after q /\
      match p_element p, p_element q with
      | Some (w, v, cs), Some (w', v', cs') => w = w' /\ v = v' /\ Permutation cs cs'
      | None, None => True
      | _, _ => False
      end) (rev ps) (rev qs)) by (clear -X; induction X; [constructor|cbn [rev]; apply Forall2_app; auto]).
    destruct Z as [|p q ps' qs' [E1 [E2 E3]] _]; [reflexivity|]. rewrite E1, E2. destruct (p_element p) as [[[? ?] ?]|], (p_element q) as [[[? ?] ?]|]; tauto.
  - destruct X; [reflexivity|]. split; intros _; discriminate.
Qed.

Lemma parts_M R e nested (ps : list (@part val vcomplaint)) : means_in nested e R -> Forall (part_ok R) ps -> Forall (part_ok (M rec_rules (pyfun nested) e)) ps.
Proof.
  intro H. apply Forall_impl. intros [b x a] [O1 [O2 O3]]. repeat split; auto. cbn [p_element p_after] in *. destruct x as [[[w v] cs]|]; [|exact O3].
  apply H. exists cs. auto.
Qed.

Lemma notice_same (ps qs : list (@part val vcomplaint)) : List.length qs = List.length ps -> (Exists empty_part ps <-> Exists empty_part qs) ->
  list_notice ps = list_notice qs.
Proof.
  intros L E. assert (X : some_empty_element ps <-> some_empty_element qs) by (unfold some_empty_element; rewrite L, E; reflexivity).
  assert (N : forall l : list (@part val vcomplaint), list_notice l = [(1151%N, [])] /\ some_empty_element l \/ list_notice l = [] /\ ~ some_empty_element l).
  { intro l. destruct (proj1 (notice_spec l _) eq_refl) as [[H1 H2]|[H1 H2]].
    - left. split; [|exact H1]. now apply app_inv_head in H2.
    - right. split; [|exact H1]. rewrite <- (app_nil_r (list_complaints l)) in H2 at 2. now apply app_inv_head in H2. }
  destruct (N ps) as [[-> H1]|[-> H1]], (N qs) as [[-> H2]|[-> H2]]; tauto || reflexivity.
Qed.

Lemma lists_mean_in : forall nested e element, is_proper e -> means_in nested e element ->
  (forall w v cs, element w v cs -> v <> VSkip /\ v <> VNone) ->
  (is_proper (comma_list e) /\ means_in nested (comma_list e) (list_spec element list_shape)) /\
  (is_proper (comma_list1 e) /\ means_in nested (comma_list1 e) (list_spec element list1_shape)).
Proof.
  intros nested e R Pe H Vis.
  assert (VM : forall w v cs, M rec_rules (pyfun nested) e w v cs -> v <> VSkip /\ v <> VNone).
  { intros w v cs X. apply H in X. destruct X as [cs' [X _]]. eapply Vis; eauto. }
  assert (Pg : proper rec_names (group e) = true) by (now rewrite proper_group).
  assert (PO : proper rec_names OWS = true) by reflexivity.
  split; split.
  - apply proper_seal, proper_wrap, proper_modl.
    + apply proper_maybe, proper_seq; [exact Pg|now apply proper_skip].
    + apply proper_times, proper_seq; [apply proper_skip, proper_seq; [apply proper_literal|exact PO]|].
      apply proper_maybe, proper_seq; [exact Pg|now apply proper_skip].
  - intros w v cs. rewrite (comma_list_M VM). split.
    + intros [cs' [[ps [N [F [TL [-> [-> E]]]]]] P]]. destruct (parts_perm H F) as [qs [Fq [E1 [E2 [P1 [E3 [E4 [E5 [E6 [E7 E8]]]]]]]]]].
      exists (list_complaints qs ++ list_notice qs). split.
      * exists qs. split; [exact Fq|]. split; [split; tauto|]. rewrite E1, E2. repeat split; auto. now apply notice_spec.
      * rewrite <- P, E. apply Permutation_app; [exact P1|]. now rewrite (notice_same E3 E4).
    + intros [cs' [[ps [F [[N TL] [-> [-> E]]]]] P]]. apply notice_spec in E. exists cs'. split; [|now apply Permutation_sym].
      exists ps. repeat split; auto. now apply (parts_M H).
  - apply proper_seal, proper_wrap, proper_add; [apply proper_add|].
    + apply proper_times, proper_wrap, proper_seq; [apply proper_literal|exact PO].
    + now apply proper_wrap.
    + apply proper_times, proper_seq; [apply proper_skip, proper_seq; [exact PO|apply proper_literal]|]. apply proper_maybe, proper_seq; [now apply proper_skip|exact Pe].
  - intros w v cs. rewrite (comma_list1_M VM). split.
    + intros [cs' [[ps [N [F [TL [TR [-> [-> E]]]]]]] P]]. destruct (parts_perm H F) as [qs [Fq [E1 [E2 [P1 [E3 [E4 [E5 [E6 [E7 E8]]]]]]]]]].
      exists (list_complaints qs ++ list_notice qs). split.
      * exists qs. split; [exact Fq|]. split; [|rewrite E1, E2; repeat split; auto; now apply notice_spec].
        split; [|split; tauto]. apply E5. exact N.
      * rewrite <- P, E. apply Permutation_app; [exact P1|]. now rewrite (notice_same E3 E4).
    + intros [cs' [[ps [F [[N [TL TR]] [-> [-> E]]]]] P]]. apply notice_spec in E. exists cs'. split; [|now apply Permutation_sym].
      exists ps. repeat split; auto. now apply (parts_M H).
Qed.
Lemma lists_mean : forall e element, is_proper e -> means_as e element ->
  (forall w v cs, element w v cs -> v <> VSkip /\ v <> VNone) ->
  (is_proper (comma_list e) /\ means_as (comma_list e) (list_spec element list_shape)) /\
  (is_proper (comma_list1 e) /\ means_as (comma_list1 e) (list_spec element list1_shape)).
Proof.
  intros e R Pe H Vis. pose proof (fun nested => @lists_mean_in nested e R Pe (H nested) Vis) as L.
  destruct (L (fun _ _ => (VBad, []))) as [[P1 _] [P2 _]]. split; (split; [assumption|]); intro nested; apply L.
Qed.
Theorem C10_lists : forall e element, is_proper e -> means_as e element ->
  (forall w v cs, element w v cs -> v <> VSkip /\ v <> VNone) ->
  reads_as (comma_list e) (list_spec element list_shape) /\
  reads_as (comma_list1 e) (list_spec element list1_shape).
Proof. intros e R Pe H Vis. destruct (lists_mean Pe H Vis) as [[A B] [C D]]. split; now apply reads_as_intro. Qed.
Print Assumptions C10_lists.

(** A text as an element. *)
Lemma text_means x L : (forall nested, textual rec_rules (pyfun nested) x L) -> means_as x (fun w v cs => L w /\ v = VStr w /\ cs = []).
Proof.
  intros T nested w v cs. rewrite (M_text (T nested)). split.
  - intros [H [-> ->]]. exists []. auto.
  - intros [cs' [[H [-> ->]] P]]. apply Permutation_sym, Permutation_nil in P. subst. auto.
Qed.

(** The list of tokens "a, ,b ": two elements and a notice. *)
Example C10_example : reads_as (comma_list token) (list_spec (fun w v cs => all1 is_tchar w /\ v = VStr w /\ cs = []) list_shape) /\
  list_spec (fun w v cs => all1 is_tchar w /\ v = VStr w /\ cs = []) list_shape (s "a, ,b ") (VList [VStr (s "a"); VStr (s "b")]) [(1151%N, [])].
Proof.
  split.
  - apply C10_lists; [reflexivity|apply text_means; apply token_textual|]. intros w v cs [_ [-> _]]. split; discriminate.
  - exists [Part [] (Some (s "a", VStr (s "a"), [])) []; Part (s " ") None []; Part [] (Some (s "b", VStr (s "b"), [])) (s " ")].
    split; [|split; [split; [discriminate|reflexivity]|]].
    + repeat constructor; cbn; repeat constructor; discriminate.
    + split; [reflexivity|]. split; [reflexivity|]. left. split; [|reflexivity]. split; [cbn; lia|]. right. left. reflexivity.
Qed.

(** ** C11: Content-Length *)

Theorem C11_content_length :
  reads_as Content_Length (fun w v cs => all1 is_digit w /\ v = VInt (Z.of_N (decimal w)) /\ cs = []).
Proof.
  apply reads_as_intro; [reflexivity|]. intros nested w v cs. rewrite Content_Length_M. unfold int_spec. split.
  - intros [H [-> ->]]. exists []. auto.
  - intros [cs' [[H [-> ->]] P]]. apply Permutation_sym, Permutation_nil in P. subst. auto.
Qed.
Print Assumptions C11_content_length.

(** What [decimal] is: place value. *)
Theorem C11_decimal : (forall d, (d < 10)%N -> decimal [48 + d]%N = d) /\ (forall w c, decimal (w ++ [c]) = 10 * decimal w + decimal [c])%N.
Proof.
  split.
  - intros d _. unfold decimal. cbn [fold_left]. lia.
  - intros w c. unfold decimal. rewrite fold_left_app. cbn [fold_left]. lia.
Qed.
Print Assumptions C11_decimal.
Example C11_example : all1 is_digit (s "0042") /\ decimal (s "0042") = 42%N /\ ~ all1 is_digit (s "+42") /\ ~ all1 is_digit [].
Proof.
  split; [split; [discriminate|repeat constructor]|]. split; [reflexivity|].
  split; [intros [_ H]; inversion H; discriminate|]. intros [H _]. now apply H.
Qed.

(** ** C12: tokens and quoted strings *)

Theorem C12_token : reads_text token (all1 is_tchar).
Proof. apply reads_text_intro; [reflexivity|]. apply token_textual. Qed.
Print Assumptions C12_token.

(** The text between the quotes, and the characters that follow a backslash;
    a notice for each of these that is not a quote or a backslash. *)
Theorem C12_quoted_string : reads_as quoted_string (fun w v cs =>
  exists x text quoted, w = 34%N :: x /\ unquote x = Some (text, quoted) /\ v = VStr text /\
    cs = map (fun c => (1017%N, [(s "char", VStr [c])])) (filter (fun c => negb (N.eqb c 34 || N.eqb c 92)) quoted)).
Proof.
  apply reads_as_intro; [reflexivity|]. intros nested w v cs. rewrite quoted_string_M. unfold quoted_spec, escapes, quoted_complaint.
  assert (E : forall q, filter (fun c => negb (among (s """\") c)) q = filter (fun c => negb (N.eqb c 34 || N.eqb c 92)) q).
  { intro q. apply filter_ext. intro c. unfold among. cbn -[N.eqb]. now rewrite orb_false_r. }
  split; intros [cs' [[x [t [q [-> [U [-> ->]]]]]] P]]; eexists; (split; [exists x, t, q; split; [reflexivity|]; split; [exact U|]; split; reflexivity|]);
    rewrite ?E in *; now apply Permutation_sym.
Qed.
Print Assumptions C12_quoted_string.
Example C12_example : unquote (s "a\b\""c""") = Some (s "ab""c", s "b""") /\ unquote (s "a""b""") = None /\ unquote (s "ab\""") = None.
Proof. repeat split. Qed.

(** ** C13: entity tags *)

Theorem C13_entity_tag : reads_as entity_tag (fun w v cs =>
  exists t, tag_ok t /\ w = tag_text t /\ v = tag_val t /\ cs = tag_notes t).
Proof.
  apply reads_as_intro; [reflexivity|]. intros nested w v cs. rewrite entity_tag_M. split.
  - intros [t [O [-> [-> P]]]]. exists (tag_notes t). split; [eauto 6|]. now apply Permutation_sym.
  - intros [cs' [[t [O [-> [-> ->]]]] P]]. exists t. repeat split; auto. now apply Permutation_sym.
Qed.
Print Assumptions C13_entity_tag.

(** Comparison in terms of the texts (RFC 7232 2.3.2): weakly equal if the
    same but for [W/]; strongly equal if the same and without [W/]. *)
Lemma tag_text_inj a b : tag_ok a -> tag_ok b -> tag_text a = tag_text b -> a = b.
Proof.
  destruct a as [[|] u], b as [[|] v]; intros [x [_ E]] [y [_ E']]; unfold tag_text; cbn in *; subst; intro H.
  - now injection H as ->.
  - discriminate H.
  - discriminate H.
  - now injection H as ->.
Qed.

Theorem C13_comparison :
  (forall a b, weak_equiv a b = true <-> opaque a = opaque b) /\
  (forall a b, tag_ok a -> tag_ok b -> strong_equiv a b = true <-> tag_text a = tag_text b /\ tag_weak a = false) /\
  (* laws *)
  (forall a, weak_equiv a a = true) /\
  (forall a b, weak_equiv a b = weak_equiv b a) /\
  (forall a b c, weak_equiv a b = true -> weak_equiv b c = true -> weak_equiv a c = true) /\
  (forall a b, strong_equiv a b = strong_equiv b a) /\
  (forall a b c, strong_equiv a b = true -> strong_equiv b c = true -> strong_equiv a c = true) /\
  (forall a b, strong_equiv a b = true -> weak_equiv a b = true) /\
  (forall a b, tag_weak a = true \/ tag_weak b = true -> strong_equiv a b = false) /\
  (forall a, strong_equiv a a = negb (tag_weak a)).
Proof.
  assert (W : forall a b, weak_equiv a b = true <-> opaque a = opaque b) by (intros; apply str_eqb_eq).
  assert (S : forall a b, strong_equiv a b = true <-> tag_weak a = false /\ tag_weak b = false /\ opaque a = opaque b).
  { intros a b. unfold strong_equiv. rewrite !andb_true_iff, !negb_true_iff, str_eqb_eq. tauto. }
  split; [exact W|]. split.
  { intros a b Oa Ob. rewrite S. split.
    - intros [H1 [H2 H3]]. unfold tag_text. rewrite H1, H2, H3. auto.
    - intros [H1 H2]. apply tag_text_inj in H1; auto. subst. auto. }
  split; [intro a; now apply W|]. split; [intros a b; apply eq_true_iff_eq; rewrite !W; split; congruence|].
  split; [intros a b c; rewrite !W; congruence|]. split; [intros a b; apply eq_true_iff_eq; rewrite !S; intuition congruence|].
  split; [intros a b c; rewrite !S; intuition congruence|]. split; [intros a b; rewrite S, W; tauto|].
  split; [intros a b [H|H]; apply not_true_iff_false; rewrite S; intuition congruence|].
  intro a. unfold strong_equiv. destruct (tag_weak a); [reflexivity|]. cbn. now apply str_eqb_eq.
Qed.
Print Assumptions C13_comparison.
Example C13_example : tag_ok (Tag true (s """a\b""")) /\ tag_text (Tag true (s """a\b""")) = s "W/""a\b""" /\
  tag_notes (Tag true (s """a\b""")) = [(1119%N, [])] /\
  weak_equiv (Tag true (s """a\b""")) (Tag false (s """a\b""")) = true /\ strong_equiv (Tag true (s """a\b""")) (Tag false (s """a\b""")) = false.
Proof. split; [exists (s "a\b"); split; [repeat constructor|reflexivity]|]. repeat split. Qed.

(** ** C58: dates *)

(** The formats are those of HttpDate.v; [date_notice] tells the notices.  A
    string is written from one list of fields only. *)
Theorem C58_dates :
  language_is HTTP_date (fun w => exists f obsolete, in_range f /\ written_as w f obsolete) /\
  (forall w f obsolete, in_range f -> written_as w f obsolete ->
   forall nested annotated r, reads nested annotated HTTP_date w (Accepted r) ->
     (real_date f /\ real_time f -> pr_node r = moment f) /\
     (~ (real_date f /\ real_time f) -> exists x, pr_node r = VUnavailable x) /\
     NoDup (map fst (pr_complaints r)) /\
     forall n, In n (map fst (pr_complaints r)) <-> date_notice f obsolete n) /\
  (forall w f f' b b', in_range f -> in_range f' -> written_as w f b -> written_as w f' b' -> f = f' /\ b = b').
Proof.
  split; [|split].
  - intros nested annotated w. destruct (@reads_complete nested annotated HTTP_date w ltac:(reflexivity)) as [C1 C2].
    rewrite HTTP_date_accepts in C1, C2.
    assert (A : forall r, reads nested annotated HTTP_date w (Accepted r) -> exists f b, in_range f /\ written_as w f b).
    { intros r H. apply reads_accepted in H. apply (HTTP_date_accepts nested). eauto. }
    split; split.
    + intros [r H]. eauto.
    + apply C1.
    + intros [e H] X. destruct (C1 X) as [r H']. pose proof (returns_unique H H') as E. discriminate E.
    + apply C2.
  - intros w f b R W nested annotated r H. apply reads_accepted, HTTP_date_spec in H. destruct H as [f' [b' [R' [W' H]]]].
    destruct (date_unique R R' W W') as [<- <-]. exact H.
  - intros w f f' b b'. apply date_unique.
Qed.
Print Assumptions C58_dates.

(** 6 November 1994 is a Sunday. *)
Example C58_example : let f := Fields 6 6 11 1994 8 49 37 in
  in_range f /\ written_as (s "Sun, 06 Nov 1994 08:49:37 GMT") f false /\ written_as (s "Sunday, 06-Nov-94 08:49:37 GMT") f true /\
  written_as (s "Sun Nov  6 08:49:37 1994") f true /\ real_date f /\ real_time f /\ right_weekday f /\
  ~ real_date (Fields 0 29 2 1900 0 0 0) /\ ~ real_time (Fields 0 1 1 2017 23 59 60).
Proof.
  cbn zeta. split; [unfold in_range; cbn; lia|]. split; [now constructor|]. split; [apply wa_rfc850; [reflexivity|cbn; lia]|].
  split; [apply wa_asctime1; [reflexivity|cbn; lia]|].
  assert (RD : real_date (Fields 6 6 11 1994 8 49 37)) by (apply real_date_spec; [unfold in_range; cbn; lia|reflexivity]).
  split; [exact RD|]. split; [unfold real_time; cbn; lia|]. split; [apply (right_weekday_spec RD); vm_compute; reflexivity|].
  split; [rewrite <- real_date_spec by (unfold in_range; cbn; lia); discriminate|]. unfold real_time. cbn. lia.
Qed.

(** A misspelling in the code: "Saturady" is what notice 1108 says. *)
Theorem C58_misspelled_refuted : exists w r,
  reads (fun _ _ => (VBad, [])) (fun _ => false) HTTP_date w (Accepted r) /\
  In (1108%N, [(s "date", VStr (s "1994-11-06")); (s "claimed", VStr (s "Saturady")); (s "actual", VStr (s "Sunday"))]) (pr_complaints r).
Proof.
  exists (s "Sat, 06 Nov 1994 08:49:37 GMT").
  eexists. split; [exists 3000; vm_compute; reflexivity|]. vm_compute. auto 10.
Qed.
Print Assumptions C58_misspelled_refuted.

(** ** The parser on the symbols of the grammar

    C01 - C05 are about grammars that satisfy some conditions.  All symbols of
    httpolice/syntax do. *)
Theorem C01_http_symbols : forall x, In x all_symbols ->
  @well_formed HG (as_nonterminal x) /\ @productive HG (as_nonterminal x).
Proof. intros x I. pose proof (all_symbols_sane I) as S. split; [now apply sane_wf|now apply sane_productive]. Qed.
Print Assumptions C01_http_symbols.

(** C04 and C05 for them, without conditions: in particular, 'end of data' is
    expected exactly when the input cut at the error is accepted. *)
Lemma all_symbols_unnested : forallb unnested all_symbols = true.
Proof. vm_compute. reflexivity. Qed.

Theorem C05_http_symbols : forall x nested annotated data e, In x all_symbols ->
  reads nested annotated x data (Rejected e) ->
  (In ExpEnd (pe_expected e) <-> exists r, reads nested annotated x (firstn (pe_position e) data) (Accepted r)) /\
  pe_position e <= List.length data /\
  pe_found e = nth_error data (pe_position e) /\
  (forall c, (exists rest r, reads nested annotated x (firstn (pe_position e) data ++ c :: rest) (Accepted r)) <->
     exists bits ps, In (ExpTerminal bits ps) (pe_expected e) /\ N.testbit bits c = true).
Proof.
  intros x nested annotated data e I H. pose proof (all_symbols_sane I) as S.
  pose proof all_symbols_unnested as U. rewrite forallb_forall in U. specialize (U x I). apply (unnested_ok S) in U.
  assert (G : forall w, @generates HG (as_nonterminal x) w <-> exists r, reads nested annotated x w (Accepted r)).
  { intro w. apply C01_parser_accepts_language. now apply sane_wf. }
  destruct (C05_end_of_data_unnested H) as [E1 E2]. destruct (C04_error_exact (sane_productive S) H) as [P [_ [_ [F T]]]].
  split; [rewrite <- G; split; auto|]. split; [exact P|]. split; [exact F|].
  intro c. rewrite <- T. unfold viable. split.
  - intros [rest X]. apply G in X. exists rest. now rewrite <- app_assoc.
  - intros [rest X]. exists rest. apply G. now rewrite <- app_assoc in X.
Qed.
Print Assumptions C05_http_symbols.
Example C05_http_example : exists e, reads (fun _ _ => (VBad, [])) (fun _ => false) Content_Length (s "12x") (Rejected e) /\ In ExpEnd (pe_expected e).
Proof. eexists. split; [exists 300; vm_compute; reflexivity|]. vm_compute. auto 10. Qed.
