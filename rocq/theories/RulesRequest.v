(** The checks of requests follow their rules. *)
From Coq Require Import ZifyBool ZifyNat ZifyN String Sorted.
From Verif Require Import Base Earley Grammar Syntax Actions Nested P_Types Text Structure Known Tables Header HeaderProofs P_Header P_Views P_Util Values Notices
  ChecksBase ChecksLogic ChecksViews ChecksFacts ChecksSays ChecksMessage ChecksRequest ChecksResponse HeaderValue P_Bodies RulesLogic Rules RulesBase RulesMessage RulesPayload RulesAny P_Inputs.
Open Scope nat_scope.
Open Scope list_scope.
Unset Strict Implicit.
Local Open Scope string_scope.
Local Open Scope list_scope.

Section Request.
Variable E : env.
Variable W : event -> Prop.
Hypothesis http : parses_http (e_read E).
Variable q : request.
Notation m := (q_msg q).
Notation j := (of_request q).
Notation follows := (follows E W).

(** ** Derived properties *)

Lemma target_syntax_iff y : target_syntax q y <-> y = target_symbol (q_method q).
Proof.
  unfold target_symbol. destruct (str_eqb (q_method q) (s "CONNECT")) eqn:A; [apply str_eqb_eq in A|destruct (str_eqb (q_method q) (s "OPTIONS")) eqn:B; [apply str_eqb_eq in B|]].
  - split; [intros []; try congruence; rewrite A in *; discriminate|intros ->; now constructor].
  - split; [intros []; try congruence|intros ->; now constructor]. rewrite H in B. discriminate B.
  - assert (A' : q_method q <> s "CONNECT") by (rewrite <- str_eqb_eq; congruence). assert (B' : q_method q <> s "OPTIONS") by (rewrite <- str_eqb_eq; congruence).
    split; [intros []; congruence|intros ->; now constructor].
Qed.
Lemma target_silent : silent (target_symbol (q_method q)) = true.
Proof. unfold target_symbol. repeat match goal with |- context [if ?b then _ else _] => destruct b end; apply (proj1 (forallb_forall _ _) silent_ok); cbn [In]; tauto. Qed.
Definition form_of (o : option str) : Prop := forall x, o = Some x <-> formed E q x.
Lemma formed_unique x x' : formed E q x -> formed E q x' -> x = x'.
Proof.
  intros [y [v [r [T [P U]]]]] [y' [v' [r' [T' [P' U']]]]]. apply target_syntax_iff in T. apply target_syntax_iff in T'. subst. pose proof (parses_as_unique P P'). subst. congruence.
Qed.
Lemma does_form : does E W (target_form q) (due (skipn 1 (rules_request_line E q))) form_of.
Proof.
  eapply does_to.
  - unfold target_form. eapply does_bind.
    + apply does_parse; [exact http|exact target_silent].
    + intros v v' [P|[N ->]] [P'|[N' ->]]; [exact (parses_as_unique P P')|destruct (N' _ P)|destruct (N _ P')|reflexivity].
    + intros v [P|[N ->]]; cbn beta.
      * instantiate (1 := fun _ => nothing). cbn beta. destruct (okay_value v) eqn:O.
        { eapply returns_bind; [apply does_some|]. intros [a b] U. cbn [fst]. destruct a; try apply does_raise. apply does_ret. intro y. split.
          - intro Q. injection Q as <-. exists (target_symbol (q_method q)), v, b. split; [now apply target_syntax_iff|]. auto.
          - intro F. f_equal. eapply formed_unique; [|exact F]. exists (target_symbol (q_method q)), v, b. split; [now apply target_syntax_iff|]. auto. }
        { apply does_ret. intro y. split; [discriminate|]. intros [z [v' [r [T [P' U]]]]]. apply target_syntax_iff in T. subst z. rewrite (parses_as_unique P' P) in U.
          destruct v; cbn in O, U; try discriminate O; discriminate U. }
      * cbn [okay_value]. apply does_ret. intro y. split; [discriminate|]. intros [z [v' [r [T [P' U]]]]]. apply target_syntax_iff in T. subst z. destruct (N _ P').
  - intro e. unfold rules_request_line. cbn [skipn due]. unfold due_by, about, nothing. cbn [r_who r_id r_due]. split.
    + intros [[N ->]|[v [_ []]]]. left. eexists. split; [reflexivity|]. split; [reflexivity|]. exists (target_symbol (q_method q)). split; [now apply target_syntax_iff|exact N].
    + intros [[ctx [-> [-> [y [T N]]]]]|[]]. apply target_syntax_iff in T. subst y. left. auto.
Qed.
Lemma form_is_iff o l : form_of o -> form_is o l = true <-> exists k, In k l /\ form E q k.
Proof.
  intro F. unfold form_is. rewrite version_in_iff. unfold form. split.
  - intros [x [-> [k [I ->]]]]. exists k. split; [exact I|]. now apply F.
  - intros [k [I H]]. exists (s k). split; [now apply F|]. exists k. auto.
Qed.
Lemma form_one o k : form_of o -> form_is o [k] = true <-> form E q k.
Proof. intro F. rewrite (form_is_iff _ F). split; [intros [x [[<-|[]] H]]; exact H|]. intro H. exists k. split; [now left|exact H]. Qed.
Lemma form_of_unique o o' : form_of o -> form_of o' -> o = o'.
Proof.
  intros F F'. destruct o as [x|]; [symmetry; apply F'; now apply F|]. destruct o' as [x|]; [|reflexivity]. apply F. now apply F'.
Qed.

(** A target that is not parsed may be reported on the side, and what is
    reported about the payload. *)
Hypothesis side_line : forall e, due (skipn 1 (rules_request_line E q)) e -> W e.
Hypothesis side : forall e, due (rules_payload E j) e -> W e.

Lemma gets_form : returns E W (target_form q) form_of.
Proof. eapply does_side; [exact does_form|exact side_line]. Qed.
Lemma apart_forms x y : str_eqb (s x) (s y) = false -> form E q x -> form E q y -> False.
Proof. intros H F G. pose proof (formed_unique F G) as Q. apply str_eqb_eq in Q. congruence. Qed.
Lemma gets_uri : returns E W (effective_uri q) (fun o => forall u, o = Some u <-> uri E q u).
Proof.
  unfold effective_uri. eapply returns_bind; [exact gets_form|]. intros o F. 
  assert (U1 : form E q "absolute-form" -> forall u, uri E q u <-> u = q_target q).
  { intros A u. split; [|intros ->; left; auto]. intros [[_ ->]|[sc [_ [_ [[B _]|[x [_ [[B _]|[B _]]]]]]]]]; [reflexivity| | |]; exfalso; (eapply apart_forms; [|exact A|exact B]; reflexivity). }
  pose proof (form_one "absolute-form" F) as FA. destruct (form_is o ["absolute-form"]).
  - apply does_ret. intro u. rewrite U1 by tauto. split; [intro Q; now injection Q|congruence].
  - assert (NA : ~ form E q "absolute-form") by (intro K; apply FA in K; discriminate K). 
    assert (NS : forall P : str -> Prop, (forall sc, q_scheme q = Some sc -> sc <> [] -> False) -> forall u, None = Some u <-> uri E q u).
    { intros P N u. split; [discriminate|]. intros [[K _]|[sc [S [Z _]]]]; [destruct (NA K)|destruct (N sc S Z)]. }
    destruct (q_scheme q) as [[|c sc0]|] eqn:SC; [apply does_ret; apply NS; [exact (fun _ => True)|]; intros sc Q; try rewrite SC in Q; injection Q as <-; congruence| |apply does_ret; apply NS; [exact (fun _ => True)|]; intros sc Q; try rewrite SC in Q; discriminate Q].
    set (scheme := c :: sc0) in *. assert (NE : scheme <> []) by discriminate.
    pose proof (form_one "authority-form" F) as FU. pose proof (form_one "origin-form" F) as FO.
    assert (FF : form_is o ["authority-form"; "asterisk-form"] = true <-> form E q "authority-form" \/ form E q "asterisk-form").
    { rewrite (form_is_iff _ F). split; [intros [k [[<-|[<-|[]]] H]]; auto|]. intros [H|H]; eexists; (split; [|exact H]); cbn; auto. }
    destruct (form_is o ["authority-form"]) eqn:X.
    + assert (A : form E q "authority-form") by tauto. eapply returns_bind with (R := fun o => o = Some (q_target q)); [apply does_ret; reflexivity|]. intros ? ->.
      assert (Y : form_is o ["authority-form"; "asterisk-form"] = true) by tauto. rewrite Y. apply does_ret. intro u. split.
      * intro Q. injection Q as <-. right. exists scheme. auto.
      * intros [[K _]|[sc [Q [_ [[_ ->]|[x [_ [[B _]|[B _]]]]]]]]]; [destruct (NA K)|try rewrite SC in Q; injection Q as <-; reflexivity| |]; exfalso; (eapply apart_forms; [|exact A|exact B]; reflexivity).
    + assert (NU : ~ form E q "authority-form") by (intro K; apply FU in K; discriminate K).
      eapply returns_bind with (R := fun o => forall x, o = Some x <-> host E q x).
      * eapply returns_bind; [apply does_value; exact http|]. intros v V. destruct (okay_value v) eqn:O.
        { assert (R : readable v) by now apply readable_okay. eapply returns_bind; [apply does_some|]. intros x T. apply text_is_iff in T. apply does_ret. intro y. split.
          - intro Q. injection Q as <-. exists v. auto.
          - intros [v' [V' [_ T']]]. rewrite (header_value_unique V' V) in T'. now rewrite (text_is_unique T T'). }
        { apply does_ret. intro y. split; [discriminate|]. intros [v' [V' [R _]]]. rewrite (header_value_unique V' V) in R. apply readable_okay in R. congruence. }
      * intros [x|] A.
        { assert (H : host E q x) by now apply A. assert (HU : forall y, host E q y -> y = x) by (intros y K; apply A in K; congruence).
          destruct (form_is o ["authority-form"; "asterisk-form"]) eqn:Y.
          - assert (B : form E q "asterisk-form") by tauto. apply does_ret. intro u. split.
            + intro Q. injection Q as <-. right. exists scheme. split; [exact SC|]. split; [exact NE|]. right. exists x. auto.
            + intros [[K _]|[sc [Q [_ [[K _]|[y [HY [[_ ->]|[C _]]]]]]]]]; [destruct (NA K)|destruct (NU K)|try rewrite SC in Q; injection Q as <-; now rewrite (HU y HY)|].
              exfalso. eapply apart_forms; [|exact B|exact C]; reflexivity.
          - assert (NB : ~ form E q "asterisk-form") by (intro K; assert (false = true) by tauto; discriminate). destruct (form_is o ["origin-form"]).
            + apply does_ret. intro u. split.
              * intro Q. injection Q as <-. right. exists scheme. split; [exact SC|]. split; [exact NE|]. right. exists x. split; [exact H|]. right. split; [tauto|reflexivity].
              * intros [[K _]|[sc [Q [_ [[K _]|[y [HY [[K _]|[_ ->]]]]]]]]]; [destruct (NA K)|destruct (NU K)|destruct (NB K)|try rewrite SC in Q; injection Q as <-; now rewrite (HU y HY)].
            + apply does_ret. intro u. split; [discriminate|]. intros [[K _]|[sc [Q [_ [[K _]|[y [HY [[K _]|[K _]]]]]]]]]; [destruct (NA K)|destruct (NU K)|destruct (NB K)|]. apply FO in K. discriminate K. }
        { apply does_ret. intro u. split; [discriminate|]. intros [[K _]|[sc [Q [_ [[K _]|[y [HY _]]]]]]]; [destruct (NA K)|destruct (NU K)|]. apply A in HY. discriminate HY. }
Qed.
Lemma uri_unique u u' : uri E q u -> uri E q u' -> u = u'.
Proof.
  assert (HU : forall x y, host E q x -> host E q y -> x = y).
  { intros x y [v [V [_ T]]] [v' [V' [_ T']]]. rewrite (header_value_unique V' V) in T'. eapply text_is_unique; eassumption. }
  intros [[A ->]|[sc [S [_ H]]]] [[A' ->]|[sc' [S' [_ H']]]]; [reflexivity| | |].
  - exfalso. destruct H' as [[B _]|[x [_ [[B _]|[B _]]]]]; (eapply apart_forms; [|exact A|exact B]; reflexivity).
  - exfalso. destruct H as [[B _]|[x [_ [[B _]|[B _]]]]]; (eapply apart_forms; [|exact A'|exact B]; reflexivity).
  - rewrite S in S'. injection S' as <-. destruct H as [[B ->]|[x [X [[B ->]|[B ->]]]]], H' as [[B' ->]|[x' [X' [[B' ->]|[B' ->]]]]]; try reflexivity; try (now rewrite (HU _ _ X X'));
      exfalso; (eapply apart_forms; [|exact B|exact B']; reflexivity).
Qed.
Lemma has_token_iff keys : has_token keys = true <-> In access_token keys.
Proof. unfold has_token. rewrite existsb_exists. split; [intros [k [I H]]; apply str_eqb_eq in H; now subst|]. intro I. eexists. split; [exact I|now apply str_eqb_eq]. Qed.
Lemma tests_token_in_uri : tests E W (keys <- query_params q ;; ret (has_token keys)) (token_in_uri E q).
Proof.
  unfold query_params. assert (K : returns E W (query_params q) (fun keys => In access_token keys <-> token_in_uri E q)).
  { unfold query_params. eapply returns_bind; [exact gets_uri|]. intros [u|] U.
    - assert (H : uri E q u) by now apply U. eapply returns_bind; [apply does_ask|]. intros ? ->. eapply returns_bind; [apply does_result|]. intros r R.
      eapply returns_bind; [apply does_ask|]. intros ? ->. eapply does_weak; [apply does_result|]. intros keys Q. cbn beta. split.
      + intro I. exists keys. split; [|exact I]. exists u, r. auto.
      + intros [keys' [[u' [r' [H' [R' Q']]]] I]]. rewrite (uri_unique H' H), R in R'. injection R' as <-. rewrite Q in Q'. now injection Q' as <-.
    - apply does_ret. split; [intros []|]. intros [keys' [[u' [r' [H' _]]] I]]. apply U in H'. discriminate H'. }
  eapply returns_bind; [exact K|]. intros keys H. apply does_ret. now rewrite has_token_iff.
Qed.
Lemma tests_bodiless : tests E W (b <- has_body q ;; ret (says_no b)) (bodiless q).
Proof.
  unfold has_body, bodiless, body_there. destruct (truthy_val (m_body m)) eqn:B; [eapply returns_bind with (R := fun b => b = Some true); [apply does_ret; reflexivity|]; intros ? ->; apply does_ret; split; [discriminate|tauto]|].
  pose proof (version_iff m ["HTTP/1.0"; "HTTP/1.1"]) as V. destruct (version_in (m_version m) ["HTTP/1.0"; "HTTP/1.1"]).
  - assert (T : tests E W (present j "Content-Length" |? present j "Transfer-Encoding") (has m "Content-Length" \/ has m "Transfer-Encoding")) by test.
    eapply returns_bind with (R := fun o => exists b, o = Some b /\ (b = true <-> has m "Content-Length" \/ has m "Transfer-Encoding")).
    + eapply returns_bind; [exact T|]. intros b H. apply does_ret. eauto.
    + intros ? [b [-> H]]. apply does_ret. unfold lacks. destruct b; cbn [says_no]; [split; [discriminate|tauto]|]. split; [intros _|reflexivity].
      split; [discriminate|]. split; [tauto|]. split; intro K; (assert (false = true) by tauto); discriminate.
  - eapply returns_bind with (R := fun b => b = None); [apply does_ret; reflexivity|]. intros ? ->. apply does_ret. cbn [says_no]. split; [discriminate|]. intros [_ [K _]]. apply V in K. discriminate K.
Qed.

(** ** Checks *)

Lemma tests_directs key : tests E W (has_directive q key) (directs E m key).
Proof. unfold has_directive. test. Qed.
Ltac known_test ::=
  lazymatch goal with
  | |- tests _ _ (bind (has_body _) _) _ => exact tests_bodiless
  | |- tests _ _ (code_between _ _ _) _ => apply tests_code
  | |- tests _ _ (has_directive _ _) _ => apply tests_directs
  | |- tests _ _ (bind (query_params _) _) _ => exact tests_token_in_uri
  end.

Lemma untyped_body : follows (check_untyped_body q) (rules_untyped_body q).
Proof. eapply does_to; [unfold check_untyped_body; walk|]. table. Qed.
Lemma length_needed : follows (check_length_needed q) (rules_length_needed q).
Proof. eapply does_to; [unfold check_length_needed; walk|]. table. Qed.
Lemma length_useless : follows (check_length_useless q) (rules_length_useless q).
Proof. eapply does_to; [unfold check_length_useless; walk|]. table. Qed.
Lemma te_chunked : follows (check_te_chunked q) (rules_te_chunked E q).
Proof. eapply does_to; [unfold check_te_chunked; walk|]. table. Qed.
Lemma te_http2 : follows (check_te_http2 q) (rules_te_http2 E q).
Proof. eapply does_to; [unfold check_te_http2; walk|]. table. Qed.
Lemma te_connection : follows (check_te_connection q) (rules_te_connection E q).
Proof. eapply does_to; [unfold check_te_connection; walk|]. table. Qed.
Lemma host_missing : follows (check_host_missing q) (rules_host_missing q).
Proof. eapply does_to; [unfold check_host_missing; walk|]. table. Qed.
Lemma request_headers : follows (check_request_headers q) (rules_request_headers q).
Proof. eapply does_to; [unfold check_request_headers; walk|]. table. Qed.
Lemma unexpected_body : follows (check_unexpected_body q) (rules_unexpected_body q).
Proof. eapply does_to; [unfold check_unexpected_body; walk|]. table. Qed.
Lemma options_body : follows (check_options_body q) (rules_options_body q).
Proof. eapply does_to; [unfold check_options_body; walk|]. table. Qed.
Lemma expect : follows (check_expect q) (rules_expect E q).
Proof. eapply does_to; [unfold check_expect; walk|]. table. Qed.
Lemma max_forwards : follows (check_max_forwards q) (rules_max_forwards q).
Proof. eapply does_to; [unfold check_max_forwards; walk|]. table. Qed.
Lemma accept_encoding : follows (check_accept_encoding q) (rules_accept_encoding E q).
Proof. eapply does_to; [unfold check_accept_encoding; walk|]. table. Qed.
Lemma if_match : follows (check_if_match q) (rules_if_match E q).
Proof. eapply does_to; [unfold check_if_match; walk|]. table. Qed.
Lemma head_preconditions : follows (check_head_preconditions q) (rules_head_preconditions q).
Proof. eapply does_to; [unfold check_head_preconditions; walk|]. table. Qed.
Lemma preconditions_follow : follows (check_preconditions q) (rules_preconditions q).
Proof. eapply does_to; [unfold check_preconditions; walk|]. table. Qed.
Lemma range : follows (check_range q) (rules_range q).
Proof. eapply does_to; [unfold check_range; walk|]. table. Qed.
Lemma if_range : follows (check_if_range q) (rules_if_range q).
Proof. eapply does_to; [unfold check_if_range; walk|]. table. Qed.
Lemma if_range_weak : follows (check_if_range_weak q) (rules_if_range_weak E q).
Proof. eapply does_to; [unfold check_if_range_weak; walk|]. open_table. unfold has_part. cbn [j_msg of_request]. split; intro; table_one. Qed.
Lemma cache_directives : follows (check_cache_directives q) (rules_cache_directives E q).
Proof. eapply does_to; [unfold check_cache_directives; walk|]. table. Qed.
Lemma no_cache_pragma : follows (check_no_cache_pragma q) (rules_no_cache_pragma E q).
Proof. eapply does_to; [unfold check_no_cache_pragma; walk|]. table. Qed.
Lemma request_warnings : follows (check_request_warnings q) (rules_request_warnings E q).
Proof. eapply does_to; [unfold check_request_warnings; walk|]. table. Qed.
Lemma uncacheable_method : follows (check_uncacheable_method q) (rules_uncacheable_method E q).
Proof. eapply does_to; [unfold check_uncacheable_method; walk|]. table. Qed.
Lemma directive_pairs : follows (check_directive_pairs q) (rules_directive_pairs E q).
Proof. eapply does_to; [unfold check_directive_pairs, conflicting; walk|]. open_table. split.
  - intros [[x y] [I [[A B] ->]]]. left. eexists. split; [reflexivity|]. exists x, y. auto.
  - intros [[ctx [-> [x [y [I [A [B ->]]]]]]]|[]]. exists (x, y). auto.
Qed.
Lemma patch : follows (check_patch q) (rules_patch E q).
Proof. eapply does_to; [unfold check_patch; walk|]. table. Qed.
Lemma h2c : follows (check_h2c q) (rules_h2c E q).
Proof. eapply does_to; [unfold check_h2c; walk|]. table. Qed.
Lemma settings_option : follows (check_settings_option q) (rules_settings_option E q).
Proof. eapply does_to; [unfold check_settings_option; walk|]. table. Qed.
Lemma host_first : follows (check_host_first q) (rules_host_first q).
Proof.
  eapply does_to; [unfold check_host_first; walk|]. open_table. split.
  - intros [[P [e0 [H N]]] ->]. left. exists []. split; [reflexivity|]. split; [reflexivity|]. split; [exact P|]. destruct (header_entries (m_entries m)) as [|e l]; [discriminate H|].
    injection H as ->. eauto.
  - intros [[ctx [-> [-> [P [e0 [l [H N]]]]]]]|[]]. split; [|reflexivity]. split; [exact P|]. exists e0. rewrite H. auto.
Qed.
Lemma upper_iff x y : capitals x y <-> y = upper x.
Proof.
  assert (O : forall c d, (lowercase c /\ (d + 32)%N = c) \/ (~ lowercase c /\ d = c) <-> d = upper1 c).
  { intros c d. unfold lowercase, upper1. destruct ((97 <=? c) && (c <=? 122))%N eqn:Q; lia. }
  unfold capitals, upper. split.
  - induction 1 as [|c d x y H _ IH]; cbn [map]; [reflexivity|]. apply O in H. now subst.
  - intros ->. induction x as [|c x IH]; cbn [map]; constructor; [now apply O|exact IH].
Qed.
Lemma uppercase : follows (check_uppercase q) (rules_uppercase q).
Proof.
  eapply does_to; [unfold check_uppercase; walk|]. open_table. unfold known_method. split.
  - intros [[N K] ->]. left. eexists. split; [reflexivity|]. exists (upper (q_method q)). split; [now apply upper_iff|]. split; [congruence|]. auto.
  - intros [[ctx [-> [x [C [N [K ->]]]]]]|[]]. apply upper_iff in C. subst x. split; [|reflexivity]. split; [congruence|exact K].
Qed.
Lemma request_line : follows (check_request_line q) (rules_request_line E q).
Proof.
  eapply does_to.
  - unfold check_request_line. eapply does_after; [apply does_parse; [exact http|apply (proj1 (forallb_forall _ _) silent_ok); cbn [In]; tauto]|].
    eapply does_after with (D' := nothing); [exact does_form|]. apply does_ret. exact Logic.I.
  - intro e. change (rules_request_line E q) with ([hd (plain Req 0 True) (rules_request_line E q)] ++ skipn 1 (rules_request_line E q)). rewrite due_app. unfold nothing.
    cbn [rules_request_line hd due]. unfold due_by, about. cbn [r_who r_id r_due]. split.
    + intros [[N ->]|[H|[]]]; [left; left; eexists; split; [reflexivity|]; auto|right; exact H].
    + intros [[[ctx [-> [-> N]]]|[]]|H]; [left; auto|right; left; exact H].
Qed.
Lemma referer : follows (check_referer q) (rules_referer E q).
Proof.
  eapply does_to; [unfold check_referer; walk|]. open_table. unfold okay. split.
  - intros [[[v [V R]] I] [v' [V' [u [-> [p [P [H ->]]]]]]]]. rewrite (header_value_unique V' V) in P. left. exists []. repeat apply conj; try reflexivity; [exact I|]. exists v, p. auto.
  - intros [[ctx [-> [-> [I [v [r [V [R [U H]]]]]]]]]|[]]. split; [split; [eauto|exact I]|]. exists v. split; [exact V|]. exists (e_url E). split; [reflexivity|]. exists r. auto.
Qed.
Lemma members_unique k l l' : members E m k l -> members E m k l' -> l = l'.
Proof.
  intros [v [V H]] [v' [V' H']]. rewrite (header_value_unique V' V) in H'. destruct H as [->|[x [X ->]]], H' as [Q|[x' [X' ->]]].
  - now injection Q.
  - destruct X' as [X'|X']; discriminate X'.
  - subst v. destruct X as [X|X]; discriminate X.
  - now rewrite (text_is_unique X X').
Qed.
Lemma does_members k : is_single (s k) = true -> returns E W (items j k) (members E m k).
Proof.
  intro S. unfold items. eapply returns_bind; [apply does_value; exact http|]. intros v V. rewrite S. eapply returns_bind; [apply does_some|]. intros l L. apply does_ret. exists v. split; [exact V|].
  assert (T : match str_like v with Some (Plain x) | Some (CI x) => Some (letters_of x) | None => None end = Some l -> v = VList l \/ exists x, text_is v x /\ l = map (fun c => VStr [c]) x).
  { intro H. right. unfold text_is. destruct (str_like v) as [[x|x]|]; try discriminate H; injection H as <-; exists x; auto. }
  destruct v; try (apply T; exact L). injection L as ->. now left.
Qed.
Lemma okay_has k : class_of (s k) = Some SingleView -> okay E m k -> has m k.
Proof.
  intros C [v [V R]]. apply header_value_iff in V. subst v. apply got_has with (E := E). revert R. unfold got_view, is_present. rewrite C. unfold parse_view. rewrite pre_parse_eq.
  cbn [combine_entries]. unfold parse_single. set (us := filter _ _). rewrite <- map_rev. destruct (rev us) as [|u r]; [intros [R _]; now destruct R|reflexivity].
Qed.
Lemma user_agent : follows (check_user_agent q) (rules_user_agent E q).
Proof.
  eapply does_to with (D := fun e => (lacks m "User-Agent" /\ e = Said Req 1070 []) \/ (okay E m "User-Agent" /\ exists l x xs, members E m "User-Agent" l /\
    filter is_versioned l = x :: xs /\ (forall y, In y (x :: xs) -> exists i, part "item" y i /\ In (text_of i) library_table) /\ e = Said Req 1093 [(s "library", CVal x)])).
  - assert (A : okay E m "User-Agent" -> ~ lacks m "User-Agent").
    { intros H N. apply N. apply okay_has; [reflexivity|exact H]. }
    eapply does_to; [unfold check_user_agent; eapply does_ifM; [eapply tests_absent; exact http|intro T; walk|intro T; eapply does_when; [test|intro K]]|].
    + eapply does_get with (R := members E m "User-Agent") (D' := fun l e => exists x xs, filter is_versioned l = x :: xs /\ (forall y, In y (x :: xs) -> exists i, part "item" y i /\ In (text_of i) library_table) /\ e = Said Req 1093 [(s "library", CVal x)]);
        [apply does_members; reflexivity|apply members_unique|]. intros l _. destruct (filter is_versioned l) as [|x xs].
      * eapply does_to; [apply does_ret; exact Logic.I|]. intro e. split; [intros []|]. intros [x [xs [Q _]]]. discriminate Q.
      * eapply does_to; [eapply does_when; [apply tests_all; intros y Y; test|intro H; walk]|]. intro e. cbn beta. split; [intros [H ->]; eauto|].
        intros [x' [xs' [Q [H ->]]]]. injection Q as <- <-. auto.
    + intro e. cbn beta. unfold nothing. split; [intros [[]|[H|[_ [K [l [L [x [xs H]]]]]]]]; [now left|right]|]; [split; [exact K|]; exists l, x, xs; tauto|].
      intros [H|[K [l [x [xs [L H]]]]]]; [right; now left|]. right. right. split; [exact (A K)|]. split; [exact K|]. exists l. split; [exact L|]. exists x, xs. exact H.
  - open_table. split.
    + intros [[N ->]|[K [l [x [xs [L [F [H ->]]]]]]]]; [left; exists []; auto|]. right. left. eexists. split; [reflexivity|]. exists l, x, xs. split; [exact K|]. split; [exact L|]. split; [|auto].
      rewrite <- F. now apply (picked_iff _ _ versioned_iff).
    + intros [[ctx [-> [-> N]]]|[[ctx [-> [l [x [xs [K [L [F [H ->]]]]]]]]]|[]]]; [now left|]. right. split; [exact K|]. exists l, x, xs. split; [exact L|]. split; [|auto].
      symmetry. now apply (picked_iff _ _ versioned_iff).
Qed.
Lemma basic_auth name c : reports E W (check_basic_auth q name c) (fun e => 
  (~ stringy c /\ e = Said Req 1209 [harg name]) \/
  (stringy c /\ e_base64 E (text_of c) = None /\ e = Said Req 1210 [harg name; (s "error", CError)]) \/
  (exists x, stringy c /\ e_base64 E (text_of c) = Some x /\ ~ In 58%N x /\ e = Said Req 1211 [harg name]) \/
  (exists x d, stringy c /\ e_base64 E (text_of c) = Some x /\ In d x /\ (d <= 31 \/ d = 127)%N /\ e = Said Req 1212 [harg name; (s "char", CVal (VStr (hex d)))])).
Proof.
  unfold check_basic_auth. eapply does_to; [eapply does_if; [meaning|intro T|intro T; walk]|].
  - eapply does_let; [apply does_ask|]. cbn beta. destruct (e_base64 E (text_of c)) as [x|] eqn:B.
    + instantiate (1 := fun e => match e_base64 E (text_of c) with
        | None => e = Said Req 1210 [harg name; (s "error", CError)]
        | Some x => (~ In 58%N x /\ e = Said Req 1211 [harg name]) \/
            exists d, In d x /\ (d <= 31 \/ d = 127)%N /\ e = Said Req 1212 [harg name; (s "char", CVal (VStr (hex d)))] end). cbn beta. rewrite B.
      eapply does_to; [eapply does_then; walk|]. intro e. cbn beta. split.
      * intros [[N ->]|[d [I [H ->]]]]; [left; split; [|reflexivity]|right; exists d; split; [exact I|]; split; [|reflexivity]].
        { intro K. apply N. exists 58%N. split; [exact K|apply N.eqb_refl]. }
        { unfold is_ctl in H. lia. }
      * intros [[N ->]|[d [I [H ->]]]]; [left; split; [|reflexivity]|right; exists d; split; [exact I|]; split; [|reflexivity]].
        { intros [y [K Y]]. apply N.eqb_eq in Y. now subst. }
        { unfold is_ctl. lia. }
    + cbn beta. rewrite B. walk.
  - intro e. cbn beta. destruct (e_base64 E (text_of c)) as [x|] eqn:B.
    + split.
      * intros [[T [[N ->]|[d [I [H ->]]]]]|[T ->]]; [right; right; left; exists x; auto|right; right; right; exists x, d; auto|left; auto].
      * intros [[T ->]|[[_ [Q _]]|[[y [T [Q [N ->]]]]|[y [d [T [Q [I [H ->]]]]]]]]]; [right; auto|discriminate Q|injection Q as <-; left; split; [exact T|left; auto]|injection Q as <-; left; split; [exact T|right; eauto]].
    + split.
      * intros [[T ->]|[T ->]]; [right; left; auto|left; auto].
      * intros [[T ->]|[[T [_ ->]]|[[y [_ [Q _]]]|[y [d [_ [Q _]]]]]]]; [right; auto|left; auto|discriminate Q|discriminate Q].
Qed.
Lemma authorization : follows (check_authorization q) (rules_authorization E q).
Proof.
  eapply does_to.
  - unfold check_authorization. eapply does_each with (D := fun k e => exists v, header_value E m k v /\ readable v /\ exists p, unpack2 v = Some p /\
      ((veq (fst p) (const "AuthScheme" "Basic") = true /\ (
  (~ stringy (snd p) /\ e = Said Req 1209 [harg k]) \/
  (stringy (snd p) /\ e_base64 E (text_of (snd p)) = None /\ e = Said Req 1210 [harg k; (s "error", CError)]) \/
  (exists x, stringy (snd p) /\ e_base64 E (text_of (snd p)) = Some x /\ ~ In 58%N x /\ e = Said Req 1211 [harg k]) \/
  (exists x d, stringy (snd p) /\ e_base64 E (text_of (snd p)) = Some x /\ In d x /\ (d <= 31 \/ d = 127)%N /\ e = Said Req 1212 [harg k; (s "char", CVal (VStr (hex d)))]))) \/
       (veq (fst p) (const "AuthScheme" "Basic") = false /\ veq (fst p) (const "AuthScheme" "Bearer") = true /\ 
         ((insecure (q_scheme q) /\ e = Said Req 1261 [harg k]) \/ (~ stringy (snd p) /\ e = Said Req 1262 [harg k]))) \/
       (veq (fst p) (const "AuthScheme" "Basic") = false /\ veq (fst p) (const "AuthScheme" "Bearer") = false /\ truthy_val (snd p) = false /\ e = Said Req 1274 [harg k]))).
    intros k _. eapply does_under; [test| |intros e [v [V [R _]]]; exists v; auto]. intros [v [V R]].
    eapply does_to; [eapply does_get; [gets|unique|intros v' V'; eapply does_get; [gets|unique|intros p P]]|].
    + eapply does_if; [meaning|intro T; apply basic_auth|intro T]. eapply does_if; [meaning|intro T'; unfold check_bearer_auth; walk|intro T'; walk].
    + intro e. cbn beta. split.
      * intros [v' [V' [p [P H]]]]. rewrite (header_value_unique V' V) in P. exists v. split; [exact V|]. split; [exact R|]. exists p. split; [exact P|]. rewrite <- !not_true_iff_false. tauto.
      * intros [v' [V' [_ [p [P H]]]]]. exists v'. split; [exact V'|]. exists p. split; [exact P|]. rewrite <- !not_true_iff_false in H. tauto.
  - open_table. unfold basic, bearer, other_scheme, credentials, auth_headers, harg. split.
    + intros [k [I [v [V [R [[a b] [P H]]]]]]]. cbn [fst snd] in H. split_up; subst.
      * left. eexists. split; [reflexivity|]. exists k, b. dig.
      * right; left. eexists. split; [reflexivity|]. exists k, b. dig.
      * right; right; left. eexists. split; [reflexivity|]. exists k, b, x. dig.
      * right; right; right; left. eexists. split; [reflexivity|]. exists k, b, x, x0. dig.
      * right; right; right; left. eexists. split; [reflexivity|]. exists k, b, x, 127%N. dig.
      * right; right; right; right; left. eexists. split; [reflexivity|]. exists k, b. dig.
      * right; right; right; right; right; left. eexists. split; [reflexivity|]. exists k, b. dig.
      * right; right; right; right; right; right; left. eexists. split; [reflexivity|]. exists k, b. dig.
    + intro. split_up; subst; (eexists; split; [eassumption|]; eexists; split; [eassumption|]; split; [assumption|]; eexists; split; [eassumption|]; cbn [fst snd]).
      * left. split; [assumption|]. left. auto.
      * left. split; [assumption|]. right. left. auto.
      * left. split; [assumption|]. right. right. left. eauto.
      * left. split; [assumption|]. right. right. right. eauto 8.
      * left. split; [assumption|]. right. right. right. eauto 8.
      * right. left. split; [assumption|]. split; [assumption|]. left. auto.
      * right. left. split; [assumption|]. split; [assumption|]. right. auto.
      * right. right. auto.
Qed.
Lemma urlsafe_iff c : is_urlsafe c = true <-> urlsafe_char c.
Proof. unfold is_urlsafe, urlsafe_char, is_letter, Text.is_digit. lia. Qed.
Lemma not_forallb {A} (f : A -> bool) l : forallb f l = false -> exists x, In x l /\ f x = false.
Proof. induction l as [|x l IH]; cbn [forallb]; [discriminate|]. destruct (f x) eqn:F; [intro H; destruct (IH H) as [y [I Y]]; exists y; split; [now right|exact Y]|]. exists x. split; [now left|exact F]. Qed.
Lemma settings : follows (check_settings q) (rules_settings E q).
Proof.
  unfold check_settings. eapply does_under.
  - test.
  - intros _. eapply does_to; [eapply does_get with (D' := fun v e => exists x, v = VStr x /\ (exists c, In c x /\ ~ urlsafe_char c) /\ e = Said Req 1234 []); [gets|unique|]|].
    + intros v _. assert (D : (exists x, v = VStr x) \/ forall x, v <> VStr x) by (destruct v; try (right; discriminate); left; eauto).
      destruct D as [[x ->]|D]; [|destruct v; try apply does_raise; now destruct (D x)]. eapply does_to; [walk|]. intro e. cbn beta. split.
      * intros [N ->]. exists x. split; [reflexivity|]. split; [|reflexivity]. destruct (forallb is_urlsafe x) eqn:F; [now destruct N|]. apply not_forallb in F. destruct F as [c [I F]]. exists c. split; [exact I|].
        intro K. apply urlsafe_iff in K. congruence.
      * intros [x' [Q [[c [I C]] ->]]]. injection Q as <-. split; [|reflexivity]. intro F. rewrite forallb_forall in F. now apply C, urlsafe_iff, F.
    + open_table. split.
      * intros [v [V [x [-> [[c [I C]] ->]]]]]. left. exists []. split; [reflexivity|]. split; [reflexivity|]. eauto.
      * intros [[ctx [-> [-> [x [c [V [I C]]]]]]]|[]]. exists (VStr x). split; [exact V|]. exists x. eauto 6.
  - open_table. intros [[ctx [-> [-> [x [c [V [I C]]]]]]]|[]]. exists (VStr x). split; [exact V|]. now apply readable_okay.
Qed.
Lemma token_in_uri_follows : follows (check_token_in_uri q) (rules_token_in_uri E q).
Proof. eapply does_to; [unfold check_token_in_uri; walk|]. table. Qed.
Lemma side_form e : due (rules_form E j) e -> W e.
Proof. intro H. apply side. unfold rules_payload. rewrite !due_app. auto. Qed.
Lemma side_codings e : due (rules_codings E j) e -> W e.
Proof. intro H. apply side. unfold rules_payload. rewrite !due_app. auto. Qed.
Lemma side_json e : due (rules_json E j) e -> W e.
Proof. intro H. apply side. unfold rules_payload. rewrite !due_app. auto. Qed.
Lemma gets_exactly {A} (c : M A) R : returns E W c R -> returns E W c (fun v => snd (c E) = Ok v).
Proof. intros [S C]. split; [exact S|]. intros v O. split; [exact O|intros e []]. Qed.
Lemma gets_displayable : returns E W (displayable_body j) (fun v => snd (displayable_body j E) = Ok v).
Proof.
  apply gets_exactly with (R := fun _ => True). unfold displayable_body.
  eapply returns_bind; [eapply tests_truth; exact http|]. intros te _. eapply returns_bind; [eapply tests_truth; exact http|]. intros ce _.
  eapply returns_bind; [apply gets_charset; [exact http|exact side_codings]|]. intros cs _.
  eapply returns_bind; [eapply does_side; [apply json_follows; [exact http|exact side_codings]|exact side_json]|]. intros json _. cbv zeta.
  destruct json; try (eapply returns_bind; [apply does_result|]; intros r _; apply does_ret; exact Logic.I);
    (eapply returns_bind; [apply gets_unicode; [exact http|exact side_codings]|]; intros u _; destruct (okay_value u);
      [destruct u; try apply does_raise; apply does_ret; exact Logic.I|];
      eapply returns_bind; [apply gets_decoded; [exact http|exact side_codings]|]; intros b _; eapply returns_bind; [apply does_ask|]; intros rep _; destruct (okay_value b);
      [destruct b; try apply does_raise; apply does_ret; exact Logic.I|];
      destruct (m_body (j_msg j)); try apply does_raise; apply does_ret; exact Logic.I).
Qed.
Lemma token_in_body_follows : follows (check_token_in_body q) (rules_token_in_body E q).
Proof.
  eapply does_to.
  - unfold check_token_in_body. eapply does_get with (R := form_is_keys E j) (D' := fun o e => exists keys, o = Some keys /\ (In access_token keys /\ insecure (q_scheme q)) /\
      exists b, snd (displayable_body j E) = Ok b /\ e = Said Req 1271 [(s "where", CVal (VTuple [fst b; VList (map VStr (snd b))]))]).
    + eapply does_side; [apply form_follows; [exact http|exact side_codings]|exact side_form].
    + intros [a|] [b|] A B; try reflexivity; [symmetry; apply B; now apply A|symmetry; apply B; now apply A|apply A; now apply B].
    + intros [keys|] _.
      * eapply does_to; [eapply does_when; [apply tests_pure; apply and_iff; [apply has_token_iff|meaning]|intros _; eapply does_get; [exact gets_displayable|congruence|intros b _; walk]]|].
        intro e. cbn beta. split; [intros [H K]; eauto|]. intros [k [Q H]]. now injection Q as <-.
      * eapply does_to; [apply does_ret; exact Logic.I|]. intro e. split; [intros []|]. intros [k [Q _]]. discriminate Q.
  - open_table. unfold token_in_body. split.
    + intros [o [F [keys [-> [[T I] [[x ns] [D ->]]]]]]]. left. eexists. split; [reflexivity|]. exists x, ns. split; [exists keys; split; [now apply F|exact T]|]. auto.
    + intros [[ctx [-> [x [ns [[keys [K T]] [I [D ->]]]]]]]|[]]. exists (Some keys). split; [|exists keys; split; [reflexivity|]; split; [auto|]; exists (x, ns); auto].
      intro k. split; [intro Q; now injection Q as <-|]. intro F. now rewrite (form_keys_unique F K).
Qed.

(** *** Lists of values *)

Lemma does_map {A B} (f : A -> M B) (R : A -> B -> Prop) l : (forall x, In x l -> returns E W (f x) (R x)) -> returns E W (mapM f l) (Forall2 R l).
Proof.
  induction l as [|x l IH]; intro H; cbn [mapM]; [apply does_ret; constructor|]. eapply returns_bind; [apply H; now left|]. intros y Y.
  eapply returns_bind; [apply IH; intros z Z; apply H; now right|]. intros ys F. apply does_ret. now constructor.
Qed.
Lemma forall2_unique {A B} (R : A -> B -> Prop) l a b : (forall x y z, R x y -> R x z -> y = z) -> Forall2 R l a -> Forall2 R l b -> a = b.
Proof. intros U F. revert b. induction F as [|x y l a H F IH]; intros b G; inversion G; subst; [reflexivity|]. f_equal; [eapply U; eassumption|auto]. Qed.
Lemma preferences_unique l l' : preferences E m l -> preferences E m l' -> l = l'.
Proof.
  intros [ds [L F]] [ds' [L' F']]. rewrite (listed_unique L' L) in F'. eapply forall2_unique; [|exact F|exact F']. intros x y z [r R] [r' R']. congruence.
Qed.
Lemma does_preferences : returns E W (without_params j) (preferences E m).
Proof.
  unfold without_params. eapply returns_bind; [apply does_items; [exact http|reflexivity]|]. intros l L.
  eapply does_weak; [apply does_map with (R := fun d p => exists r, unpack2 d = Some (p, r))|].
  - intros x _. eapply returns_bind; [apply does_some|]. intros [p r] P. apply does_ret. eauto.
  - intros ps F. exists l. auto.
Qed.
Lemma prefers_unique key v v' : prefers E m key v -> prefers E m key v' -> v = v'.
Proof. intros [l [L K]] [l' [L' K']]. rewrite (preferences_unique L' L) in K'. eapply looked_up_unique; eassumption. Qed.
Lemma does_prefers key : returns E W (preference_of j key) (prefers E m key).
Proof. unfold preference_of. eapply returns_bind; [exact does_preferences|]. intros l L. eapply does_weak; [apply does_looked|]. intros v V. now exists l. Qed.
Lemma respond_async : follows (check_respond_async q) (rules_respond_async E q).
Proof.
  eapply does_to; [unfold check_respond_async; eapply does_when; [apply tests_and; [eapply tests_get; [apply does_prefers|apply prefers_unique|intros v _; test]|intros _; test]|intros _; walk]|]. table.
Qed.
Lemma return_minimal : follows (check_return_minimal q) (rules_return_minimal E q).
Proof.
  eapply does_to; [unfold check_return_minimal; eapply does_when; [apply tests_and; [eapply tests_get; [apply does_prefers|apply prefers_unique|intros v _; test]|intros _; test]|intros _; walk]|]. table.
Qed.
Lemma tests_wants key x : tests E W (wants q key x) (wanted E q key x).
Proof.
  unfold wants. eapply tests_iff; [eapply tests_get; [exact does_preferences|apply preferences_unique|intros l _; test]|]. unfold wanted. split.
  - intros [l [L [v [I V]]]]. eauto 6.
  - intros [l [v [L [I V]]]]. eauto 6.
Qed.
Lemma return_both : follows (check_return_both q) (rules_return_both E q).
Proof. eapply does_to; [unfold check_return_both; eapply does_when; [apply tests_and; [apply tests_wants|intros _; apply tests_wants]|intros _; walk]|]. table. Qed.
Lemma handling_both : follows (check_handling_both q) (rules_handling_both E q).
Proof. eapply does_to; [unfold check_handling_both; eapply does_when; [apply tests_and; [apply tests_wants|intros _; apply tests_wants]|intros _; walk]|]. table. Qed.
Lemma duplicate_preferences : follows (check_duplicate_preferences q) (rules_duplicate_preferences E q).
Proof.
  eapply does_to.
  - unfold check_duplicate_preferences. eapply does_get with (R := listed E m "Prefer"); [apply does_items; [exact http|reflexivity]|apply listed_unique|]. intros l L.
    eapply does_get; [apply does_map with (R := fun d n => exists p r r', unpack2 d = Some (p, r) /\ unpack2 p = Some (n, r'))| |].
    + intros x _. eapply returns_bind; [apply does_some|]. intros [p r] P. eapply returns_bind; [apply does_some|]. intros [n r'] N. apply does_ret. exists p, r, r'. auto.
    + intros v v' F F'. eapply forall2_unique; [|exact F|exact F']. intros x y z [p [r [r' [A B]]]] [p' [u [u' [A' B']]]]. congruence.
    + intros ns _. walk.
  - open_table. unfold preference_names, preferences. split.
    + intros [l [L [ns [F [n [I ->]]]]]]. left. eexists. split; [reflexivity|]. exists ns, n. split; [|auto].
      assert (X : exists ps, Forall2 (fun d p => exists r, unpack2 d = Some (p, r)) l ps /\ Forall2 (fun p n => exists r, unpack2 p = Some (n, r)) ps ns).
      { clear - F. induction F as [|d n l ns [p [r [r' [A B]]]] F [ps [P Q]]]; [exists []; auto|]. exists (p :: ps). split; constructor; eauto. }
      destruct X as [ps [P Q]]. exists ps. eauto.
    + intros [[ctx [-> [ns [n [[ps [[l [L P]] Q]] [I ->]]]]]]|[]]. exists l. split; [exact L|]. exists ns. split; [|eauto].
      clear - P Q. revert ns Q. induction P as [|d p l ps [r A] P IH]; intros ns Q; inversion Q as [ | ? n ? ns' [r' B] Q']; subst; constructor; [exists p, r, r'; auto|auto].
Qed.
Lemma quiet_items k : returns E W (items j k) (fun _ => True).
Proof. unfold items. eapply returns_bind; [apply does_value; exact http|]. intros v _. eapply returns_bind; [apply does_some|]. intros l _. apply does_ret. exact Logic.I. Qed.
Lemma silence_quiet : reports E W (silence_own q) nothing.
Proof.
  unfold silence_own. eapply does_any; [apply quiet_items|]. intros l _. eapply does_any with (R := fun _ => True).
  - unfold silence_ids. eapply returns_bind; [apply does_map with (R := fun _ _ => True)|].
    + intros x _. eapply returns_bind; [apply does_some|]. intros [a b] _. cbn [fst snd]. destruct a; try apply does_raise; apply does_ret; exact Logic.I.
    + intros ids _. apply does_ret. exact Logic.I.
  - intros ids _. apply does_silence.
Qed.
(** *** Wildcards that cover something *)

Lemma multidict_or (v : val) : (exists l, v = VObj (s "MultiDict") l) \/ ~ an "MultiDict" v.
Proof.
  unfold an. destruct v as [ | | | | | | | | |c l| | ]; try (right; intros [l0 H]; discriminate H). destruct (str_eqb c (s "MultiDict")) eqn:Q; [apply str_eqb_eq in Q; subst; left; eauto|].
  right. intros [l1 H]. injection H as H _. apply str_eqb_eq in H. congruence.
Qed.
Lemma weight_default_ : weight_of VNone (VFloat (s "1.0")).
Proof. constructor. Qed.
Lemma does_normalize v : returns E W (normalize v) (weighed v).
Proof.
  unfold normalize. eapply returns_bind; [apply does_some|]. intros [i wt] U. cbv beta iota.
  eapply returns_bind with (R := item_of i).
  - assert (D : (exists a b, i = VObj (s "Parametrized") [a; b]) \/ forall a b, i <> VObj (s "Parametrized") [a; b]).
    { destruct i as [ | | | | | | | | |c [|a [|b [|z l]]]| | ]; try (right; discriminate). destruct (str_eqb c (s "Parametrized")) eqn:Q; [apply str_eqb_eq in Q; subst; left; eauto|].
      right. intros a' b' H. injection H as H _ _. apply str_eqb_eq in H. congruence. }
    destruct D as [[a [b ->]]|D].
    + cbv beta iota. destruct (str_eqb (s "Parametrized") (s "Parametrized")) eqn:Q; [apply does_ret; constructor|]. rewrite str_eqb_refl in Q. discriminate Q.
    + assert (I : item_of i i) by (constructor; exact D).
      destruct i as [ | | | | | | | | |c [|a [|b [|z l]]]| | ]; try (apply does_ret; exact I). destruct (str_eqb c (s "Parametrized")) eqn:Q; [|apply does_ret; exact I].
      apply str_eqb_eq in Q. subst c. now destruct (D a b).
  - intros i' I'. eapply returns_bind with (R := weight_of wt).
    + destruct (multidict_or wt) as [[l ->]|D].
      * cbv beta iota. destruct (str_eqb (s "MultiDict") (s "MultiDict")) eqn:Q; [|rewrite str_eqb_refl in Q; discriminate Q].
        eapply does_weak; [apply does_dict_get|]. intros u [d [P G]]. econstructor; eassumption.
      * assert (K : wt <> VNone -> weight_of wt wt) by (intro N; now constructor).
        destruct wt as [ | | | | | | | | |c l| | ]; try (apply does_ret; first [exact weight_default_|apply K; discriminate]).
        destruct (str_eqb c (s "MultiDict")) eqn:Q; [apply str_eqb_eq in Q; subst c; destruct D; now exists l|apply does_ret; apply K; discriminate].
    + intros wt' W'. apply does_ret. econstructor; eassumption.
Qed.
Lemma weighed_unique v p p' : weighed v p -> weighed v p' -> p = p'.
Proof.
  intros [v0 i wt i' wt' U I T] H. inversion H as [v1 i1 wt1 i1' wt1' U1 I1 T1]; subst. rewrite U in U1. injection U1 as <- <-. f_equal.
  - destruct I as [i ps|i N]; inversion I1 as [a b|a N1]; subst; try reflexivity; exfalso; [eapply N1; reflexivity|eapply N; reflexivity].
  - destruct T as [|l d x P G|x N N']; inversion T1; subst; try reflexivity; try congruence; try (exfalso; match goal with H : ~ an _ _ |- _ => apply H; eexists; reflexivity end).
Qed.
Lemma suffixed_test v x : tests E W (str_endswith v x) (suffixed v x).
Proof.
  unfold str_endswith, suffixed. destruct (str_like v) as [[y|y]|]; [| |apply does_raise]; apply does_ret.
  - rewrite ends_with_spec. split; [intros [r ->]; left; eauto|]. intros [[r Q]|[r [Q _]]]; [|discriminate Q]. injection Q as ->. eauto.
  - rewrite ends_iff. split; [intro H; right; eauto|]. intros [[r Q]|[r [Q H]]]; [discriminate Q|]. now injection Q as ->.
Qed.
Lemma tests_covers x y : tests E W (subsumes x y) (covers E x y).
Proof.
  unfold subsumes, covers. eapply tests_iff; [apply tests_and; [apply tests_or; [test|intros _; apply suffixed_test]|intros _]; apply tests_and; [|intros _; apply tests_and; [|intros _; test]]|].
  - eapply returns_bind; [apply does_ask|]. intros f ->. apply does_ret. apply iff_refl.
  - eapply returns_bind; [apply does_ask|]. intros f ->. apply does_ret. rewrite negb_true_iff. apply iff_refl.
  - tauto.
Qed.
(** The first pair of which something holds. *)
Definition found_first (l : list ((val * val) * (val * val))) (o : option (val * val)) : Prop :=
  match o with
  | None => forall x y, In (x, y) l -> ~ covers E x y
  | Some r => exists a x y b, l = a ++ (x, y) :: b /\ covers E x y /\ r = (fst x, fst y) /\ forall x' y', In (x', y') a -> ~ covers E x' y'
  end.
Lemma does_first l : returns E W (first_subsumption l) (found_first l).
Proof.
  induction l as [|[x y] l IH]; cbn [first_subsumption]; [apply does_ret; intros x y []|].
  eapply does_to; [eapply does_ifM with (D := nothing) (Da := nothing) (Db := nothing) (R := found_first ((x, y) :: l)); [apply tests_covers| |]|unfold nothing; tauto].
  - intro C. apply does_ret. exists [], x, y, l. split; [reflexivity|]. split; [exact C|]. split; [reflexivity|]. intros x' y' [].
  - intro N. eapply does_weak; [exact IH|]. intros [r|] F; cbn [found_first] in *.
    + destruct F as [a [x' [y' [b [-> [C [-> F]]]]]]]. exists ((x, y) :: a), x', y', b. split; [reflexivity|]. split; [exact C|]. split; [reflexivity|].
      intros u v [Q|I]; [now injection Q as <- <-|now apply F].
    + intros u v [Q|I]; [now injection Q as <- <-|now apply F].
Qed.
(** The pairs are in order of their positions. *)
Definition placed {A} (l : list A) : list ((nat * A) * (nat * A)) :=
  flat_map (fun x => map (fun y => (x, y)) (filter (fun y => negb (Nat.eqb (fst x) (fst y))) (number 0 l))) (number 0 l).
Lemma placed_pairs {A} (l : list A) : ordered_pairs l = map (fun p => (snd (fst p), snd (snd p))) (placed l).
Proof. unfold ordered_pairs, placed. generalize (number 0 l) at 2 4. intro l0. induction l0 as [|x l0 IH]; cbn [flat_map]; [reflexivity|]. rewrite map_app, <- IH, map_map. reflexivity. Qed.
Lemma placed_in {A} (l : list A) i a k b : In ((i, a), (k, b)) (placed l) <-> i <> k /\ nth_error l i = Some a /\ nth_error l k = Some b.
Proof.
  unfold placed. rewrite in_flat_map. split.
  - intros [x [I H]]. apply in_map_iff in H. destruct H as [y [Q H]]. injection Q as -> ->. apply filter_In in H. destruct H as [H K]. apply nth_number in I. apply nth_number in H.
    destruct I as [n [-> I]], H as [n' [-> H]]. cbn [fst] in K. split; [lia|]. auto.
  - intros [N [I H]]. exists (i, a). split; [apply nth_number; exists i; auto|]. apply in_map. apply filter_In. split; [apply nth_number; exists k; auto|]. cbn [fst]. lia.
Qed.
Definition earlier {A} (p p' : (nat * A) * (nat * A)) : Prop := fst (fst p) < fst (fst p') \/ (fst (fst p) = fst (fst p') /\ fst (snd p) < fst (snd p')).
Lemma number_sorted {A} (l : list A) : forall k, StronglySorted (fun x y => fst x < fst y) (number k l).
Proof.
  induction l as [|x l IH]; intro k; cbn [number]; constructor; [apply IH|]. apply Forall_forall. intros [i y] I. apply nth_number in I. destruct I as [n [-> _]]. cbn [fst]. lia.
Qed.
Lemma sorted_filter {A} (R : A -> A -> Prop) f l : StronglySorted R l -> StronglySorted R (filter f l).
Proof.
  induction 1 as [|x l H IH F]; cbn [filter]; [constructor|]. destruct (f x); [|exact IH]. constructor; [exact IH|]. rewrite Forall_forall in *. intros y I. apply F. now apply filter_In in I.
Qed.
Lemma sorted_app {A} (R : A -> A -> Prop) a b : StronglySorted R a -> StronglySorted R b -> (forall x y, In x a -> In y b -> R x y) -> StronglySorted R (a ++ b).
Proof.
  intros A1 B H. induction A1 as [|x a A1 IH F]; cbn [app]; [exact B|]. constructor; [apply IH; intros y z I J; apply H; [now right|exact J]|].
  apply Forall_app. split; [exact F|]. apply Forall_forall. intros y I. apply H; [now left|exact I].
Qed.
Lemma placed_sorted {A} (l : list A) : StronglySorted earlier (placed l).
Proof.
  unfold placed. set (ys := number 0 l) at 1. pose proof (number_sorted l 0) as S. change (number 0 l) with ys in S at 1. pose proof S as Sy. 
  assert (G : forall xs, StronglySorted (fun x y => fst x < fst y) xs ->
    StronglySorted earlier (flat_map (fun x => map (fun y => (x, y)) (filter (fun y => negb (Nat.eqb (fst x) (fst y))) ys)) xs)); [|apply G, number_sorted].
  intros xs X. induction X as [|x xs X IH F]; cbn [flat_map]; [constructor|]. apply sorted_app; [|exact IH|].
  - pose proof (sorted_filter (fun y => negb (Nat.eqb (fst x) (fst y))) Sy) as K. induction K as [|y zs K IK G]; cbn [map]; constructor; [exact IK|].
    rewrite Forall_forall in *. intros p I. apply in_map_iff in I. destruct I as [z [<- I]]. right. cbn [fst snd]. auto.
  - intros p p' I I'. apply in_map_iff in I. destruct I as [y [<- _]]. apply in_flat_map in I'. destruct I' as [x' [I' J]]. apply in_map_iff in J. destruct J as [y' [<- _]].
    left. cbn [fst snd]. rewrite Forall_forall in F. auto.
Qed.
Lemma sorted_split {A} (R : A -> A -> Prop) a x b : StronglySorted R (a ++ x :: b) -> (forall y, In y a -> R y x) /\ (forall y, In y b -> R x y).
Proof.
  induction a as [|z a IH]; cbn [app]; intro H; inversion H as [ | ? ? H' F]; subst.
  - split; [intros y []|]. now apply Forall_forall.
  - destruct (IH H') as [P Q]. split; [|exact Q]. intros y [<-|I]; [|auto]. rewrite Forall_forall in F. apply F. apply in_or_app. right. now left.
Qed.
Lemma first_iff l o : found_first (ordered_pairs l) o -> forall x y, o = Some (x, y) <-> first_covered E l x y.
Proof.
  rewrite placed_pairs. intros F x y. split.
  - intros ->. destruct F as [a [u [v [b [Q [C [R N]]]]]]]. injection R as -> ->. apply map_eq_app in Q. destruct Q as [a' [b' [Q [<- Qb]]]].
    destruct b' as [|[[i u'] [k v']] b']; [discriminate Qb|]. cbn [map fst snd] in Qb. injection Qb as -> -> <-.
    pose proof (placed_sorted l) as S. rewrite Q in S. apply sorted_split in S. destruct S as [_ S].
    assert (I : In ((i, u), (k, v)) (placed l)) by (rewrite Q; apply in_or_app; right; now left). apply placed_in in I. destruct I as [N1 [N2 N3]].
    exists i, k, u, v. repeat (apply conj; [assumption||reflexivity|]). intros i' k' c d N' I' K' L C'.
    assert (J : In ((i', c), (k', d)) (placed l)) by (apply placed_in; auto). rewrite Q in J. apply in_app_or in J. destruct J as [J|[J|J]].
    + apply (N c d); [|exact C']. exact (in_map (fun p => (snd (fst p), snd (snd p))) _ _ J).
    + injection J as -> _ -> _. lia.
    + apply S in J. destruct J as [J|[J1 J2]]; cbn [fst snd] in *; lia.
  - intros [i [k [u [v [N1 [N2 [N3 [C [-> [-> N]]]]]]]]]]. assert (I : In ((i, u), (k, v)) (placed l)) by (apply placed_in; auto).
    destruct o as [r|].
    + destruct F as [a [u' [v' [b [Q [C' [-> N']]]]]]]. apply map_eq_app in Q. destruct Q as [a' [b' [Q [<- Qb]]]].
      destruct b' as [|[[i' u0] [k' v0]] b']; [discriminate Qb|]. cbn [map fst snd] in Qb. injection Qb as -> -> <-.
      pose proof (placed_sorted l) as S. rewrite Q in S. apply sorted_split in S. destruct S as [_ S]. pose proof I as J. rewrite Q in J. apply in_app_or in J. destruct J as [J|[J|J]].
      * exfalso. apply (N' u v); [|exact C]. exact (in_map (fun p => (snd (fst p), snd (snd p))) _ _ J).
      * now injection J as <- <- <- <-.
      * exfalso. assert (I' : In ((i', u'), (k', v')) (placed l)) by (rewrite Q; apply in_or_app; right; now left). apply placed_in in I'. destruct I' as [M1 [M2 M3]].
        apply (N i' k' u' v' M1 M2 M3); [|exact C']. apply S in J. exact J.
    + exfalso. apply (F u v); [|exact C]. exact (in_map (fun p => (snd (fst p), snd (snd p))) _ _ I).
Qed.
Lemma covered_unique l x y x' y' : first_covered E l x y -> first_covered E l x' y' -> x = x' /\ y = y'.
Proof.
  intros [i [k [a [b [N1 [A [B [C [-> [-> N]]]]]]]]]] [i' [k' [a' [b' [N1' [A' [B' [C' [-> [-> N']]]]]]]]]].
  assert (T : i' < i \/ i < i' \/ (i = i' /\ k' < k) \/ (i = i' /\ k < k') \/ (i = i' /\ k = k')) by lia. destruct T as [T|[T|[T|[T|[-> ->]]]]].
  - exfalso. eapply (N i' k'); try eassumption. lia.
  - exfalso. eapply (N' i k); try eassumption. lia.
  - exfalso. eapply (N i' k'); try eassumption. lia.
  - exfalso. eapply (N' i k); try eassumption. lia.
  - split; congruence.
Qed.
Lemma subsumptions : follows (check_subsumptions q) (rules_subsumptions E q).
Proof.
  eapply does_to.
  - unfold check_subsumptions. eapply does_each with (D := fun k e => exists l, listed E m k l /\ exists ws, Forall2 weighed l ws /\ exists o, (forall x y, o = Some (x, y) <-> first_covered E ws x y) /\
      exists x y, o = Some (x, y) /\ e = Said Req 1276 [harg k; (s "wildcard", CVal x); (s "value", CVal y)]).
    intros k I. eapply does_get; [apply does_items; [exact http|]|apply listed_unique|].
    + cbn [In] in I. destruct I as [<-|[<-|[<-|[<-|[]]]]]; reflexivity.
    + intros l L. eapply does_get; [apply does_map; intros x _; apply does_normalize|intros a b; apply forall2_unique; exact weighed_unique|].
      intros ws F. eapply does_get; [eapply does_weak; [apply does_first|exact (@first_iff ws)]| |].
      * intros [[a b]|] [[c d]|] A B; try reflexivity; [symmetry; apply B; now apply A|symmetry; apply B; now apply A|apply A; now apply B].
      * intros [[x y]|] _.
        { eapply does_to; [apply does_say|]. intro e. cbn beta. split; [intros ->; eauto|]. intros [x' [y' [Q ->]]]. now injection Q as <- <-. }
        { eapply does_to; [apply does_ret; exact Logic.I|]. intro e. split; [intros []|]. intros [x' [y' [Q _]]]. discriminate Q. }
  - open_table. unfold harg. split.
    + intros [k [I [l [L [ws [F [o [O [x [y [-> ->]]]]]]]]]]]. left. eexists. split; [reflexivity|]. exists k, l, ws, x, y. split; [exact I|]. split; [exact L|]. split; [exact F|].
      split; [|reflexivity]. now apply O.
    + intros [[ctx [-> [k [l [ws [x [y [I [L [F [C ->]]]]]]]]]]]|[]]. exists k. split; [exact I|]. exists l. split; [exact L|]. exists ws. split; [exact F|].
      exists (Some (x, y)). split; [|eauto]. intros x' y'. split; [intro Q; now injection Q as <- <-|]. intro C'. destruct (covered_unique C C') as [-> ->]. reflexivity.
Qed.

Lemma request_all : Forall2 follows (request_checks q) ([] :: request_rules E q).
Proof.
  unfold request_checks, request_rules. apply Forall2_cons; [exact silence_quiet|]. apply Forall2_app; [apply message_all; [exact http|exact side_codings]|].
  repeat apply Forall2_cons; [exact request_line|exact uppercase|exact untyped_body|exact length_needed|exact length_useless|exact te_chunked|exact te_http2
    |exact te_connection|exact host_missing|exact host_first|exact request_headers|exact unexpected_body|exact options_body
    |exact expect|exact max_forwards|exact referer|exact user_agent|exact accept_encoding|exact if_match|exact head_preconditions
    |exact preconditions_follow|exact range|exact if_range|exact if_range_weak|exact cache_directives|exact no_cache_pragma
    |exact request_warnings|exact uncacheable_method|exact directive_pairs|exact authorization|exact patch|exact h2c
    |exact settings_option|exact settings|exact token_in_uri_follows|exact token_in_body_follows|exact subsumptions|exact duplicate_preferences
    |exact respond_async|exact return_minimal|exact return_both|exact handling_both|apply Forall2_nil].
Qed.
End Request.

(** A request is checked by its rules. *)
Theorem request_follows E q : parses_http (e_read E) -> follows E nothing (check_request q) (List.concat (request_rules E q)).
Proof.
  intro http. set (T := due (List.concat (request_rules E q))). apply does_merge with (W := T); [|auto].
  assert (L : forall t, In t (request_rules E q) -> forall e, due t e -> T e) by (intros t I e H; apply due_concat; eauto).
  change (follows E T (seq (request_checks q)) (List.concat ([] :: request_rules E q))). apply follows_seq. apply request_all; [exact http| |].
  - intros e H. apply (L (rules_request_line E q)); [unfold request_rules; apply in_or_app; right; now left|].
    change (rules_request_line E q) with ([hd (plain Req 0 True) (rules_request_line E q)] ++ skipn 1 (rules_request_line E q)). rewrite due_app. now right.
  - apply L. unfold request_rules, message_rules. apply in_or_app. left. apply in_or_app. left. right. now left.
Qed.
