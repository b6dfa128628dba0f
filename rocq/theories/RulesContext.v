(** Responses to known requests are checked by the rules for them. *)
From Coq Require Import ZifyBool ZifyNat ZifyN String Sorting.Sorted.
From Verif Require Import Base Earley Grammar Syntax Actions Nested P_Types Text Structure Known Tables Header HeaderProofs P_Header P_Views P_Util Values Notices
  ChecksBase ChecksLogic ChecksViews ChecksFacts ChecksSays ChecksMessage ChecksRequest ChecksResponse HeaderValue P_Bodies RulesLogic Rules RulesBase RulesMessage RulesPayload
  RulesAny RulesRequest RulesOfResponse RulesResponse.
Open Scope nat_scope.
Open Scope list_scope.
Unset Strict Implicit.
Local Open Scope string_scope.
Local Open Scope list_scope.

Section Context.
Variable E : env.
Variable W : event -> Prop.
Hypothesis http : parses_http (e_read E).
Variable n : nat.
Variable p : response.
Variable q : request.
Let j := of_response n p (Some q).
Let jq := of_request q.
Notation m := (p_msg p).
Notation mq := (q_msg q).
Notation w := (Resp n).
Notation st := (p_status p).
Notation follows := (follows E W).
Notation some_q := (Some q).

Ltac known_meaning ::=
  lazymatch goal with
  | |- status_in _ _ = true <-> _ => apply status_in_iff
  | |- between _ _ _ = true <-> _ => apply between_iff
  | |- informational _ = true <-> _ => apply informational_iff
  | |- successful _ = true <-> _ => apply successful_iff
  | |- redirection _ = true <-> _ => apply redirection_iff
  | |- client_error _ = true <-> _ => apply client_iff
  | |- server_error _ = true <-> _ => apply server_iff
  end.
Ltac known_test ::=
  lazymatch goal with
  | |- tests _ _ (cc_true _ _ _ _) _ => apply tests_cc_true; exact http
  | |- tests _ _ (cc_none _ _ _ _) _ => apply tests_cc_none; exact http
  end.
Ltac finish := unfold rname, rarg, qname; cbn [j_msg j_who j_status j_request of_request of_response] in *; split; intro; table_one.
Ltac table' := open_table; finish.
Ltac statuses := unfold status, class, late in *; cbn [In] in *; lia.
Ltac dig ::=
  lazymatch goal with
  | |- exists _, _ => eexists; dig
  | |- _ /\ _ => split; [dig|dig]
  | |- _ \/ _ => first [left; solve [dig]|right; solve [dig]]
  | |- True => exact Logic.I
  | |- False => fail
  | |- ~ is_one ?x ?b => first [assumption|match goal with H : is_one x ?a |- _ => let K := fresh in intro K; refine (@apart_ones x a b _ H K); reflexivity end]
  | |- ~ is_header ?x ?b => first [assumption|match goal with H : is_header x ?a |- _ => let K := fresh in intro K; refine (@apart_names x a b _ H K); reflexivity end]
  | |- ~ status _ _ => first [assumption|statuses]
  | |- status _ _ => first [assumption|statuses]
  | |- ~ class _ _ => first [assumption|statuses]
  | |- class _ _ => first [assumption|statuses]
  | |- _ => first [reflexivity|multimatch goal with H : _ |- _ => exact H end|solve [eauto 4]]
  end.

Lemma untyped : follows (check_untyped n p some_q q) (rules_untyped n p q).
Proof. eapply does_to; [unfold check_untyped; walk|]. open_table. unfold body_there. finish. Qed.
Lemma connect : follows (check_connect n p some_q q) (rules_connect E n p q).
Proof. eapply does_to; [unfold check_connect; walk|]. open_table. unfold connected. finish. Qed.
Lemma head_body : follows (check_head_body n p some_q q) (rules_head_body n p q).
Proof. eapply does_to; [unfold check_head_body; walk|]. table'. Qed.
Lemma te_to_http10 : follows (check_te_to_http10 n p some_q q) (rules_te_to_http10 n p q).
Proof. eapply does_to; [unfold check_te_to_http10; walk|]. table'. Qed.
Lemma partial_put : follows (check_partial_put n p some_q q) (rules_partial_put n p q).
Proof. eapply does_to; [unfold check_partial_put; walk|]. table'. Qed.
Lemma safe_method : follows (check_safe_method n p some_q q) (rules_safe_method n p q).
Proof. eapply does_to; [unfold check_safe_method; walk|]. open_table. unfold safe. finish. Qed.
Lemma created_location : follows (check_created_location n p some_q q) (rules_created_location n p q).
Proof. eapply does_to; [unfold check_created_location; walk|]. table'. Qed.
Lemma length_required : follows (check_length_required n p some_q q) (rules_length_required E n p q).
Proof. eapply does_to; [unfold check_length_required; walk|]. table'. Qed.
Lemma no_request_body : follows (check_no_request_body n p some_q q) (rules_no_request_body n p q).
Proof. eapply does_to; [unfold check_no_request_body; walk|]. table'. Qed.
Lemma expectation : follows (check_expectation n p some_q q) (rules_expectation n p q).
Proof. eapply does_to; [unfold check_expectation; walk|]. table'. Qed.
Lemma upgrade_required : follows (check_upgrade_required n p some_q) (rules_upgrade_required E n p).
Proof. eapply does_to; [unfold check_upgrade_required; walk|]. table'. Qed.
Lemma does_either c (a b : M unit) P Da Db : tests E W c P -> (P -> reports E W a Da) -> (~ P -> reports E W b Db) -> reports E W (ifM c a b) (fun e => (P /\ Da e) \/ (~ P /\ Db e)).
Proof. intros T A B. eapply does_to; [eapply does_ifM; [exact T|exact A|exact B]|]. intro e. unfold nothing. tauto. Qed.
Lemma not_lacks mm k : ~ lacks mm k <-> has mm k.
Proof.
  unfold lacks. pose proof (got_has E mm k) as G. destruct (is_present (got_view (e_read E) (m_entries mm) (s k))); [split; [intros _; now apply G|tauto]|]. split; [|tauto]. intro N. elim N. intro H. apply G in H. discriminate H.
Qed.
Lemma partial_range : follows (check_partial_range n p some_q q) (rules_partial_range n p q).
Proof.
  eapply does_to; [unfold check_partial_range; eapply does_if; [meaning|intro; eapply does_either; [test|intro; walk|intro; walk]|intro; walk]|].
  open_table. split; intro.
  - split_up; subst; [dig|]. right. left. eexists. split; [reflexivity|]. split; [reflexivity|]. split; [assumption|]. split; [now apply not_lacks|assumption].
  - split_up; subst; [dig|]. left. split; [assumption|]. right. split; [now apply not_lacks|]. auto.
Qed.
Lemma if_range_metadata : follows (check_if_range_metadata n p some_q q) (rules_if_range_metadata n p q).
Proof. eapply does_to; [unfold check_if_range_metadata; walk|]. table'. Qed.
Lemma sts_over_http : follows (check_sts_over_http n p some_q q) (rules_sts_over_http n p q).
Proof. eapply does_to; [unfold check_sts_over_http; walk|]. table'. Qed.
Lemma misdirected : follows (check_misdirected n p some_q q) (rules_misdirected E n p q).
Proof. eapply does_to; [unfold check_misdirected; walk|]. table'. Qed.
Lemma options_patch : follows (check_options_patch n p some_q q) (rules_options_patch E n p q).
Proof. eapply does_to; [unfold check_options_patch; walk|]. table'. Qed.
Lemma vary_prefer : follows (check_vary_prefer n p some_q q) (rules_vary_prefer E n p q).
Proof. eapply does_to; [unfold check_vary_prefer; walk|]. table'. Qed.

(** *** The host *)
Lemma two_places (l : list (place * entry)) : StronglySorted before' l -> (Nat.ltb 1 (List.length l) = true <-> exists a e b f, In (a, e) l /\ In (b, f) l /\ a <> b).
Proof.
  intro S. rewrite Nat.ltb_lt. split.
  - destruct l as [|[a e] [|[b f] l]]; cbn [List.length]; try lia. intros _. exists a, e, b, f. split; [now left|]. split; [right; now left|].
    intros ->. apply StronglySorted_inv in S. destruct S as [_ F]. apply Forall_inv in F. revert F. unfold before', before. cbn [fst]. destruct b as [[] i]; cbn [fst snd]; intuition (try lia; congruence).
  - intros [a [e [b [f [A [B N]]]]]]. destruct l as [|x [|y l]]; cbn [List.length]; [destruct A|destruct A as [A|[]], B as [B|[]]; exfalso; congruence|lia].
Qed.
Lemma bad_host : follows (check_bad_host n p some_q q) (rules_bad_host E n p q).
Proof.
  eapply does_to.
  - unfold check_bad_host. eapply does_when; [apply tests_and; [test|intro; apply tests_and; [apply tests_or; [test|intro; apply tests_pure; apply two_places; apply enumerate_sorted]|intro; test]]|intro; walk].
  - assert (P : (exists a e b f, In (a, e) (enumerate (m_entries mq) (s "Host")) /\ In (b, f) (enumerate (m_entries mq) (s "Host")) /\ a <> b) <->
      exists a e b f, entry_at (m_entries mq) a e /\ entry_at (m_entries mq) b f /\ a <> b /\ P_Header.same_name (s "Host") (e_name e) /\ P_Header.same_name (s "Host") (e_name f)).
    { split.
      - intros [a [e [b [f [A [B N]]]]]]. exists a, e, b, f. rewrite enumerate_in, <- same_name_lower in A, B. unfold entry_at. tauto.
      - intros [a [e [b [f [A [B [N [X Y]]]]]]]]. exists a, e, b, f. rewrite !enumerate_in, <- !same_name_lower. unfold entry_at in A, B. tauto. }
    open_table. rewrite P. cbn [j_msg j_who of_request of_response]. split.
    + intros [H ->]. left. eexists. split; [reflexivity|]. auto.
    + intros [[ctx [-> [-> H]]]|[]]. auto.
Qed.

(** *** Proxies *)
Hypothesis side_line : forall e, due (skipn 1 (rules_request_line E q)) e -> W e.
Lemma does_to_proxy : does E W (is_to_proxy q) (due (rules_to_proxy E q)) (fun o => (says_yes o = true <-> to_proxy E q) /\ (says_no o = true <-> to_server E q)).
Proof.
  unfold is_to_proxy. pose proof (version_iff mq ["HTTP/1.0"; "HTTP/1.1"]) as V. destruct (version_in (m_version mq) ["HTTP/1.0"; "HTTP/1.1"]).
  - eapply does_any; [apply (@gets_form E W http q side_line)|]. intros o F. pose proof (form_one "absolute-form" F) as G. destruct (form_is o ["absolute-form"]).
    + eapply does_to; [eapply does_then with (D' := nothing); [apply does_say|apply does_ret; cbn; unfold to_proxy, to_server; intuition congruence]|].
      open_table. cbn [j_who of_request]. unfold to_proxy. split; [intros [->|[]]; left; eexists; split; [reflexivity|]; tauto|]. intros [[ctx [-> [-> _]]]|[]]. now left.
    + assert (N : ~ form E q "absolute-form") by (intro K; apply G in K; discriminate K). apply does_none; [|cbn; unfold to_proxy, to_server; intuition congruence].
      intros e. unfold rules_to_proxy, to_proxy. cbn [due]. unfold due_by, plain. cbn [r_due]. intros [[ctx [_ [_ [_ K]]]]|[]]. tauto.
  - assert (N : ~ version mq ["HTTP/1.0"; "HTTP/1.1"]) by (intro K; apply V in K; discriminate K). apply does_none; [|cbn; unfold to_proxy, to_server; intuition congruence].
    intros e. unfold rules_to_proxy, to_proxy. cbn [due]. unfold due_by, plain. cbn [r_due]. intros [[ctx [_ [_ [K _]]]]|[]]. tauto.
Qed.
Hypothesis side_to_proxy : forall e, due (rules_to_proxy E q) e -> W e.
Hypothesis side_by_proxy : forall e, due (rules_by_proxy E j) e -> W e.
Lemma proxy_transformed : follows (check_proxy_transformed n p some_q q) (rules_proxy_transformed E n p q).
Proof.
  eapply does_to; [unfold check_proxy_transformed; eapply does_when; [apply tests_and; [exact (does_side (@does_transformed E W http j) side_by_proxy)|intros _]|intro; walk]|].
  - eapply returns_bind; [exact (does_side does_to_proxy side_to_proxy)|]. intros o [_ O]. apply does_ret. exact O.
  - open_table. cbn [j_who of_response]. split; [intros [H ->]; left; eexists; split; [reflexivity|]; auto|]. intros [[ctx [-> [-> H]]]|[]]. auto.
Qed.
Lemma does_onto {A B} (c : M A) (f : A -> M B) D (R : A -> Prop) D' (R' : B -> Prop) : does E W c D R -> (forall v, R v -> does E W (f v) D' R') ->
  does E W (bind c f) (fun e => D e \/ D' e) R'.
Proof. apply (@RulesResponse.does_onto E W). Qed.
Lemma proxy_via : follows (check_proxy_via n p some_q q) (rules_proxy_via E n p q).
Proof.
  assert (T : tests E W (pure (successful st) &? absent j "Via") (class p 2 /\ lacks m "Via")) by test.
  eapply does_to; [unfold check_proxy_via; eapply does_when_too; [eapply (does_and (D' := nothing) (Q := class p 2 /\ lacks m "Via")); [|intros _; exact T]|intro; walk]|].
  - eapply does_onto with (D' := nothing); [exact does_to_proxy|]. intros o [O _]. apply does_ret. exact O.
  - intro e. unfold rules_proxy_via. rewrite due_app. unfold nothing. cbn [due]. unfold due_by, plain. cbn [r_who r_id r_due j_who of_response]. split.
    + intros [[[H|[]]|[_ []]]|[H ->]]; [now left|]. right. left. eexists. split; [reflexivity|]. auto.
    + intros [H|[[ctx [-> [-> H]]]|[]]]; auto.
Qed.

(** *** Upgrades *)
Lemma does_unless c (a b : M unit) P Da Db : tests E W c P -> (~ P -> reports E W a Da) -> (P -> reports E W b Db) ->
  reports E W (ifM (notM c) a b) (fun e => (~ P /\ Da e) \/ (P /\ Db e)).
Proof.
  intros T A B. unfold ifM, notM. eapply does_any with (R := fun x => x = false <-> P).
  - eapply returns_bind; [exact T|]. intros x X. apply does_ret. rewrite <- X. destruct x; cbn; split; congruence.
  - intros x X. destruct x.
    + assert (N : ~ P) by (rewrite <- X; discriminate). eapply does_to; [exact (A N)|]. intro e. tauto.
    + assert (N : P) by now apply X. eapply does_to; [exact (B N)|]. intro e. tauto.
Qed.
Lemma switched : follows (check_switched n p some_q q) (rules_switched E n p q).
Proof.
  unfold check_switched. destruct (status_in p [101]%Z) eqn:S.
  - apply status_in_iff in S. eapply does_any; [apply does_items; [exact http|reflexivity]|]. intros l L. eapply does_to.
    + eapply does_then; [apply does_each; intros x X; eapply does_unless; [test|intro; walk|intro; walk]|walk].
    + assert (I : forall x, In x l <-> item E m "Upgrade" x) by (intro x; symmetry; now apply item_iff).
      open_table. cbn [j_who j_msg of_response of_request]. split.
      * intros [[x [X [[N ->]|[N [i [P [[V O] ->]]]]]]]|[V ->]].
        { apply I in X. dig. }
        { apply I in X. right. left. eexists. split; [reflexivity|]. split; [reflexivity|]. exists x, i. repeat apply conj; auto. }
        { dig. }
      * intros [[? [-> [-> [x [_ [X N]]]]]]|[[? [-> [-> [x [i [_ [X [N [P [V O]]]]]]]]]]|[[? [-> [-> [_ V]]]]|[[? [-> [-> [N _]]]]|[]]]]].
        { left. exists x. split; [now apply I|]. left. auto. }
        { left. exists x. split; [now apply I|]. right. split; [exact N|]. exists i. auto. }
        { right. auto. }
        { destruct (N S). }
  - assert (S' : ~ status p [101]%Z) by (rewrite <- status_in_iff; congruence). eapply does_to; [walk|]. open_table. cbn [j_who j_msg of_response of_request]. split.
    + intros [[C V] ->]. do 3 right. left. eexists. split; [reflexivity|]. auto.
    + intros [[? [-> [-> [x [H _]]]]]|[[? [-> [-> [x [i [H _]]]]]]|[[? [-> [-> [H _]]]]|[[? [-> [-> [_ H]]]]|[]]]]]; try (destruct (S' H)). auto.
Qed.

(** *** URIs *)
Lemma uri_none o : (forall u, o = Some u <-> uri E q u) -> (o = None \/ o = Some []) -> forall u, uri E q u -> u = [].
Proof. intros U H u Q. apply U in Q. destruct H; congruence. Qed.
Lemma tests_same_uri k : tests E W (same_uri n p some_q q k) (refers_back E p q k).
Proof.
  unfold same_uri, refers_back. unfold andM. eapply returns_bind; [apply tests_okay; exact http|]. intros b B. destruct b.
  - assert (OK : okay E m k) by (apply B; reflexivity). clear B. eapply returns_bind; [apply (@gets_uri E W http q side_line)|]. intros o U.
    assert (N : o = None \/ o = Some [] -> tests E W (ret false) (refers_back E p q k)).
    { intro H. apply does_ret. split; [discriminate|]. intros [v [u [_ [_ [Q [NE _]]]]]]. elim NE. exact (uri_none U H Q). }
    destruct o as [[|c u]|]; [apply N; now right| |apply N; now left]. clear N. assert (Q : uri E q (c :: u)) by now apply U.
    eapply returns_bind; [apply does_value; exact http|]. intros v V. eapply returns_bind; [apply does_ask|]. intros ? ->. eapply returns_bind; [apply does_result|]. intros r R.
    apply does_ret. rewrite str_eqb_eq. split.
    + intros <-. exists v, (c :: u). destruct OK as [v' [V' R']]. rewrite (header_value_unique V' V) in R'. split; [exact V|]. split; [exact R'|]. split; [exact Q|]. split; [discriminate|exact R].
    + intros [v' [u' [V' [_ [Q' [_ J]]]]]]. rewrite (header_value_unique V' V), (uri_unique Q' Q) in J. rewrite R in J. now injection J.
  - apply does_ret. split; [discriminate|]. intros [v [u [V [R _]]]]. assert (K : okay E m k) by (exists v; auto). apply B in K. discriminate K.
Qed.
Lemma content_location : follows (check_content_location n p some_q q) (rules_content_location E n p q).
Proof.
  eapply does_to; [unfold check_content_location; eapply does_when; [apply tests_same_uri|intro; walk]|]. table'.
Qed.
Lemma self_redirect : follows (check_self_redirect n p some_q q) (rules_self_redirect E n p q).
Proof.
  assert (S : scheme_given q = true <-> exists x, q_scheme q = Some x /\ x <> []).
  { unfold scheme_given. destruct (q_scheme q) as [[|c x]|]; split; try discriminate; try reflexivity; [intros [x [Q N]]; injection Q as <-; congruence|intros _; eexists; split; [reflexivity|discriminate]|intros [x [Q _]]; discriminate Q]. }
  assert (T : tests E W (okayM j "Location" &? (u <- effective_uri q ;; ret (match u with Some (_ :: _) => true | _ => false end)) &? pure (scheme_given q) &? same_uri n p some_q q "Location")
    (refers_back E p q "Location" /\ exists x, q_scheme q = Some x /\ x <> [])).
  { eapply tests_iff; [apply tests_and; [apply tests_okay; exact http|intro; apply tests_and; [|intro; apply tests_and; [apply tests_pure; exact S|intro; apply tests_same_uri]]]|].
    - eapply returns_bind; [apply (@gets_uri E W http q side_line)|]. intros o U. apply does_ret. instantiate (1 := exists u, uri E q u /\ u <> []). destruct o as [[|c u]|].
      + split; [discriminate|]. intros [u [Q N]]. apply U in Q. congruence.
      + split; [intros _|reflexivity]. exists (c :: u). split; [now apply U|discriminate].
      + split; [discriminate|]. intros [u [Q N]]. apply U in Q. congruence.
    - cbn [j_msg of_response]. split; [tauto|]. intros [R X]. split; [|split; [|auto]]; destruct R as [v [u [V [Rd [Q [N J]]]]]]; [exists v; auto|exists u; auto]. }
  eapply does_to; [unfold check_self_redirect; eapply does_when; [exact T|intro; walk]|]. open_table. cbn [j_who of_response]. split.
  - intros [[R X] [[H ->]|[[H N] ->]]]; left; eexists; (split; [reflexivity|]); (split; [reflexivity|]); (split; [exact R|]); (split; [exact X|]); [left|right]; auto.
  - intros [[? [-> [-> [R [X [H|[H N]]]]]]]|[]]; (split; [auto|]); auto.
Qed.
Lemma asterisk_redirect : follows (check_asterisk_redirect n p some_q q) (rules_asterisk_redirect E n p q).
Proof.
  eapply does_to; [unfold check_asterisk_redirect; eapply does_when; [apply tests_and; [test|intro; apply tests_and; [|intro; test]]|intro; walk]|].
  - eapply returns_bind; [apply (@gets_form E W http q side_line)|]. intros o F. apply does_ret. apply (form_one "asterisk-form" F).
  - table'.
Qed.

(** *** The headers of the request *)
Lemma clearly_in f name : In name (clearly jq f) <-> named mq name /\ marked f name.
Proof. unfold clearly. rewrite filter_In, marked_iff. unfold named, header_names. now cbn [j_msg of_request]. Qed.
Lemma clearly_none f : clearly jq f = [] <-> none_of q f.
Proof.
  unfold none_of. split.
  - intros H name N M. assert (I : In name (clearly jq f)) by (apply clearly_in; auto). rewrite H in I. destruct I.
  - intro H. destruct (clearly jq f) as [|x l] eqn:C; [reflexivity|]. assert (I : In x (clearly jq f)) by (rewrite C; now left). apply clearly_in in I. destruct I as [N M]. destruct (H x N M).
Qed.
Lemma clearly_some f x l : clearly jq f = x :: l -> exists name, named mq name /\ marked f name.
Proof. intro C. assert (I : In x (clearly jq f)) by (rewrite C; now left). apply clearly_in in I. eauto. Qed.
Lemma clearly_all f l : forallb (fun x => among x l) (clearly jq f) = true <-> forall name, named mq name -> marked f name -> is_header name l.
Proof.
  rewrite forallb_forall. split; intros H name.
  - intros N M. apply among_iff. apply H. now apply clearly_in.
  - intro I. apply clearly_in in I. destruct I as [N M]. apply among_iff. now apply H.
Qed.
Lemma just_iff f k : is_just (clearly jq f) k = true <-> just q f [k].
Proof.
  unfold just. rewrite <- clearly_all. unfold is_just. destruct (clearly jq f) as [|x l] eqn:C.
  - split; [discriminate|]. intros [[name [N M]] _]. apply clearly_none in C. destruct (C name N M).
  - split; [intro H; split; [exact (clearly_some C)|exact H]|tauto].
Qed.
Lemma not_none f x l : clearly jq f = x :: l -> ~ none_of q f.
Proof. intros C H. apply clearly_none in H. congruence. Qed.
Lemma none_not_just f l : none_of q f -> ~ just q f l.
Proof. intros H [[name [N M]] _]. exact (H name N M). Qed.
Lemma not_acceptable : follows (check_not_acceptable n p some_q q) (rules_not_acceptable n p q).
Proof.
  unfold check_not_acceptable. fold jq. destruct (clearly jq hk_proactive_conneg) as [|x l] eqn:C.
  - pose proof (proj1 (clearly_none _) C) as N. eapply does_to; [walk|]. open_table. cbn [j_who of_response]. split.
    + intros [[S ->]|[_ []]]. left. eexists. split; [reflexivity|]. auto.
    + intros [[? [-> [-> [S _]]]]|[[? [-> [-> [_ J]]]]|[]]]; [left; auto|]. destruct (none_not_just N J).
  - pose proof (not_none C) as N. rewrite <- C. eapply does_to; [eapply does_if; [meaning|intro; eapply does_when; [apply tests_pure; apply just_iff|intro; walk]|intro; walk]|]. open_table. cbn [j_who of_response]. split.
    + intros [[S [J ->]]|[_ []]]. right. left. eexists. split; [reflexivity|]. auto.
    + intros [[? [-> [-> [_ K]]]]|[[? [-> [-> [S J]]]]|[]]]; [tauto|]. left. auto.
Qed.
Lemma precondition_required : follows (check_precondition_required n p some_q q) (rules_precondition_required n p q).
Proof.
  unfold check_precondition_required. fold jq.
  assert (P : forall r, r = clearly jq hk_precondition <-> picked (marked hk_precondition) (names (m_entries mq)) r).
  { intro r. unfold clearly. apply picked_iff. intro x. apply marked_iff. }
  destruct (clearly jq hk_precondition) as [|x l].
  - eapply does_to; [walk|]. open_table. split; [intros [[_ []]|[_ []]]|]. intros [[? [-> [name [l [_ [H _]]]]]]|[]]. apply P in H. discriminate H.
  - eapply does_to; [walk|]. open_table. unfold qname. cbn [j_who of_response]. split.
    + intros [[S ->]|[_ []]]. left. eexists. split; [reflexivity|]. exists x, l. split; [exact S|]. split; [now apply P|reflexivity].
    + intros [[? [-> [name [l' [S [H ->]]]]]]|[]]. apply P in H. injection H as -> ->. left. auto.
Qed.
Lemma reading_not : method_is q ["CONNECT"; "OPTIONS"; "TRACE"] -> ~ reading q.
Proof. unfold reading, method_is. intros A B. refine (@apart_ones _ _ _ _ A B). reflexivity. Qed.
Lemma no_precondition : follows (check_no_precondition n p some_q q) (rules_no_precondition n p q).
Proof.
  unfold check_no_precondition. fold jq. assert (RD : by_method q ["GET"; "HEAD"] = true <-> reading q) by apply one_of_strs_iff.
  assert (S4 : status p [304; 412]%Z <-> status p [304]%Z \/ status p [412]%Z) by (unfold status; cbn [In]; lia).
  assert (SX : status p [304]%Z -> status p [412]%Z -> False) by (unfold status; cbn [In]; lia).
  destruct (clearly jq hk_precondition) as [|x l] eqn:C.
  - pose proof (proj1 (clearly_none _) C) as N. pose proof (@none_not_just hk_precondition) as NJ.
    eapply does_to; [eapply does_if; [meaning|intro; eapply does_if; [apply and_iff; [apply negb_iff; exact RD|meaning]|intro; walk|intro; walk]|intro; walk]|].
    open_table. cbn [j_who of_response]. assert (D : reading q \/ ~ reading q) by (destruct (by_method q ["GET"; "HEAD"]); [left; tauto|right; rewrite <- RD; discriminate]). split.
    + intros [[S [[[R S'] ->]|[H ->]]]|[_ []]]; [dig|]. right. left. eexists. split; [reflexivity|]. split; [reflexivity|]. split; [tauto|exact N].
    + intros [[? [-> [-> [S R]]]]|[[? [-> [-> [S _]]]]|[[? [-> [-> [S [_ J]]]]]|[[? [-> [-> [S [_ [_ J]]]]]]|[]]]]]; [left; split; [tauto|]; left; tauto|left; split; [tauto|]; right; tauto| |]; exfalso; eapply NJ; eauto.
  - pose proof (not_none C) as N. pose proof (clearly_some C) as SM. rewrite <- C. clear C x l.
    eapply does_to; [eapply does_if; [meaning|intro; eapply does_if; [apply and_iff; [apply negb_iff; exact RD|meaning]|intro; walk|intro]|intro; walk]|].
    { eapply does_if; [apply just_iff|intro; eapply does_when; [apply tests_pure; apply negb_iff; exact RD|intro; walk]|intro; eapply does_when; [apply tests_pure; apply and_iff; [apply clearly_all|meaning]|intro; walk]]. }
    pose proof reading_not as RN.
    open_table. cbn [j_who of_response]. split.
    + intros [[S [[[R S'] ->]|[H [[J [R ->]]|[J [[A B] ->]]]]]]|[_ []]]; [dig| |].
      * do 2 right. left. eexists. split; [reflexivity|]. split; [reflexivity|]. tauto.
      * do 3 right. left. eexists. split; [reflexivity|]. split; [reflexivity|]. pose proof (RN B). split; [tauto|]. split; [exact J|]. split; [exact B|]. split; [exact SM|exact A].
    + intros [[? [-> [-> [S R]]]]|[[? [-> [-> [S K]]]]|[[? [-> [-> [S [R J]]]]]|[[? [-> [-> [S [J [B [_ A]]]]]]]|[]]]]]; [left; split; [tauto|]; left; tauto|tauto| |].
      * left. split; [tauto|]. right. split; [tauto|]. left. auto.
      * left. split; [tauto|]. right. split; [tauto|]. right. auto.
Qed.
(** *** Statuses and bodies *)
Ltac chain := first [left; split; [solve [statuses]|reflexivity]|right; split; [solve [statuses]|chain]].
Lemma empty_body : follows (check_empty_body n p some_q q) (rules_empty_body n p q).
Proof.
  assert (EA : negb (by_method q ["HEAD"]) && is_empty (m_body m) = true <-> empty_answer p q).
  { apply and_iff; [apply negb_iff; apply one_of_strs_iff|apply empty_iff]. }
  unfold check_empty_body. destruct (negb (by_method q ["HEAD"]) && is_empty (m_body m)) eqn:B.
  - assert (A : empty_answer p q) by now apply EA. clear B EA. eapply does_to; [walk|]. open_table. cbn [j_who of_response]. split.
    + intro. split_up; subst; try contradiction; dig.
    + intro. clear A. split_up; subst; chain.
  - assert (A : ~ empty_answer p q) by (rewrite <- EA; discriminate). eapply does_to; [walk|]. open_table. split; [intros []|].
    intros H. repeat (destruct H as [[? [-> [-> [H _]]]]|H]; [tauto|]). exact H.
Qed.
Lemma version_refused : follows (check_version_refused n p some_q q) (rules_version_refused n p q).
Proof.
  assert (V : same_version p q = true <-> exists v, v <> [] /\ m_version m = Some v /\ m_version mq = Some v).
  { unfold same_version. destruct (m_version m) as [[|c x]|]; [split; [discriminate|intros [v [N [Q _]]]; congruence]| |split; [discriminate|intros [v [_ [Q _]]]; discriminate Q]].
    destruct (m_version mq) as [y|]; [|split; [discriminate|intros [v [_ [_ Q]]]; discriminate Q]]. rewrite str_eqb_eq. split.
    - intros <-. exists (c :: x). repeat split; discriminate.
    - intros [v [_ [Q Q']]]. congruence. }
  eapply does_to; [unfold check_version_refused; eapply does_when; [apply tests_pure; apply and_iff; [meaning|exact V]|intro; walk]|]. open_table. cbn [j_who of_response]. split.
  - intros [H ->]. left. eexists. split; [reflexivity|]. auto.
  - intros [[? [-> [-> H]]]|[]]. auto.
Qed.
Lemma tests_allowed : tests E W (method_allowed n p some_q q) (allowed E p q).
Proof. unfold method_allowed, allowed. eapply tests_iff; [eapply tests_has_item; [exact http|reflexivity]|]. cbn [j_msg of_response]. apply iff_refl. Qed.
Lemma allowed_follows : follows (check_allowed n p some_q q) (rules_allowed E n p q).
Proof.
  eapply does_to; [unfold check_allowed; eapply does_if; [meaning|intro; eapply does_when; [exact tests_allowed|intro; walk]|intro; eapply does_if; [meaning|intro; eapply does_when; [apply tests_and; [test|intro; apply tests_not; exact tests_allowed]|intro; walk]|intro; walk]]|].
  open_table. cbn [j_who j_msg of_response]. split.
  - intros [[S [A ->]]|[N [[C [[H K] ->]]|[_ []]]]]; [left|right; left]; (eexists; split; [reflexivity|]; split; [reflexivity|]); auto.
  - intros [[? [-> [-> [S A]]]]|[[? [-> [-> [C [H K]]]]]|[]]]; [left; auto|]. right. split; [statuses|]. left. auto.
Qed.

(** *** Upgrades *)
Lemma upgrade_each l : reports E W (first_common n p some_q q l) (fun e => exists a x b, l = a ++ x :: b /\ mentions E mq "Upgrade" x /\ (forall y, In y a -> ~ mentions E mq "Upgrade" y) /\
  ((status p [426]%Z /\ e = Said w 1102 [(s "protocol", CVal x)]) \/ (class p 2 /\ e = Said w 1103 [(s "protocol", CVal x)]))).
Proof.
  induction l as [|v l IH]; cbn [first_common].
  - apply does_none; [|exact Logic.I]. intros e [a [x [b [Q _]]]]. now destruct a.
  - eapply does_to; [eapply does_either; [test|intro; walk|intro; exact IH]|]. intro e. cbv beta. unfold nothing. cbn [j_who j_msg of_response of_request]. split.
    + intros [[M H]|[N [a [x [b [-> [M [A H]]]]]]]].
      * exists [], v, l. split; [reflexivity|]. split; [exact M|]. split; [intros y []|]. tauto.
      * exists (v :: a), x, b. split; [reflexivity|]. split; [exact M|]. split; [|exact H]. intros y [<-|I]; auto.
    + intros [[|v' a] [x [b [Q [M [A H]]]]]]; cbn [app] in Q; injection Q as -> ->.
      * left. split; [exact M|]. destruct H as [H|[C H]]; [left; exact H|]. right. split; [statuses|]. left. auto.
      * right. split; [apply A; now left|]. exists a, x, b. split; [reflexivity|]. split; [exact M|]. split; [|exact H]. intros y I. apply A. now right.
Qed.
Lemma common_upgrade : follows (check_common_upgrade n p some_q q) (rules_common_upgrade E n p q).
Proof.
  eapply does_to; [unfold check_common_upgrade; eapply does_get; [eapply does_items; [exact http|reflexivity]|apply listed_unique|intros l _; apply upgrade_each]|].
  open_table. unfold common_protocol. cbn [j_msg of_response]. split.
  - intros [l [L [a [x [b [-> [M [A [[S ->]|[S ->]]]]]]]]]]; [left|right; left]; eexists; (split; [reflexivity|]); exists x; (split; [exists a, b; auto|auto]).
  - intros [[? [-> [x [[a [b [L [M A]]]] [S ->]]]]]|[[? [-> [x [[a [b [L [M A]]]] [S ->]]]]]|[]]]; exists (a ++ x :: b); (split; [exact L|]); exists a, x, b; auto 6.
Qed.

(** *** Tags and ranges *)
Lemma tests_weak x y : tests E W (weak_equiv x y) (same_tag x y).
Proof.
  eapply tests_iff; [unfold weak_equiv; test|]. unfold same_tag. split; [intros [a [A [b [B V]]]]; exists a, b; auto|]. intros [a [b [A [B V]]]]. exists a. split; [exact A|]. exists b. auto.
Qed.
Lemma tests_strong_one x : tests E W (b <- field "weak" x ;; ret (negb (truthy_val b))) (strong x).
Proof. eapply tests_iff; [eapply tests_get; [apply does_field|apply part_unique|intros b _; apply does_ret; apply false_iff]|]. apply iff_refl. Qed.
Lemma tests_strong x y : tests E W (strong_equiv x y) (strong x /\ strong y /\ same_tag x y).
Proof. unfold strong_equiv. apply tests_and; [apply tests_strong_one|intros _]. apply tests_and; [apply tests_strong_one|intros _]. apply tests_weak. Qed.
Lemma does_or_else c d P Q (D : event -> Prop) (a : M unit) : tests E W c P -> (~ P -> tests E W d Q) -> reports E W a D -> reports E W (ifM c a (when d a)) (fun e => (P \/ Q) /\ D e).
Proof.
  intros C T A. eapply does_choose; [exact C| |].
  - intro H. eapply does_to; [exact A|]. intro e. tauto.
  - intro H. eapply does_to; [eapply does_when; [exact (T H)|intros _; exact A]|]. intro e. tauto.
Qed.
Lemma not_modified_needed : follows (check_not_modified_needed n p some_q q) (rules_not_modified_needed E n p q).
Proof.
  eapply does_to.
  - unfold check_not_modified_needed. eapply does_if; [meaning|intro|intro; walk].
    eapply does_either; [test|intro|intro].
    + eapply does_or_else; [test|intro|walk].
      eapply tests_any_item; [exact http|reflexivity|]. intros x _. eapply tests_get; [gets|unique|]. intros e _. apply tests_weak.
    + eapply does_when; [|intro; walk]. eapply tests_get; [gets|unique|]. intros v _. cbv beta. test.
  - open_table. unfold reading, method_is. cbn [j_who j_msg of_response of_request]. split.
    + intros [[[R C] [[O [[Q|[x [X [e' [V S]]]]] ->]]|[O [[v [V H]] ->]]]]|[_ []]].
      * left. eexists. split; [reflexivity|]. split; [reflexivity|]. auto.
      * left. eexists. split; [reflexivity|]. split; [reflexivity|]. do 3 (split; [assumption|]). right. exists x, e'. auto.
      * right. left. eexists. split; [reflexivity|]. split; [reflexivity|]. do 3 (split; [assumption|]). exists v. auto.
    + intros [[? [-> [-> [R [C [O [Q|[x [e' [X [V S]]]]]]]]]]]|[[? [-> [-> [R [C [O [v [V H]]]]]]]]|[]]]; left; (split; [auto|]).
      * left. auto.
      * left. split; [exact O|]. split; [|reflexivity]. right. exists x. split; [exact X|]. exists e'. auto.
      * right. split; [exact O|]. split; [|reflexivity]. exists v. auto.
Qed.
Lemma tests_in_bytes : tests E W (bytes_range q) (in_bytes E q).
Proof. unfold bytes_range. eapply tests_iff; [test|]. unfold in_bytes. cbn [j_msg of_request]. apply iff_refl. Qed.
Lemma single_range : follows (check_single_range n p some_q q) (rules_single_range E n p q).
Proof.
  eapply does_to; [unfold check_single_range; eapply does_when; [apply tests_and; [test|intro; apply tests_and; [test|intro; apply tests_and; [exact tests_in_bytes|intro]]]|intro; walk]|].
  - eapply tests_get with (P := fun r => (exists x, r = VList [x]) \/ exists c, r = VStr [c]); [gets|unique|]. intros r _. eapply returns_bind with (R := fun k => (exists l, r = VList l /\ k = List.length l) \/ exists x, r = VStr x /\ k = List.length x).
    + unfold size_of. destruct r; try apply does_raise; apply does_ret; eauto.
    + intros k K. apply does_ret. rewrite Nat.eqb_eq. destruct K as [[l [-> ->]]|[l [-> ->]]]; (destruct l as [|a [|b l]]; cbn [List.length]; (split; [intro; try lia; eauto|intros [[x Q]|[x Q]]; try discriminate Q; try reflexivity])).
  - open_table. unfold byteranges. cbn [j_who j_msg of_response of_request]. split.
    + intros [[S [T [B [r [R H]]]]] ->]. left. eexists. split; [reflexivity|]. split; [reflexivity|]. split; [auto|]. split; [exact B|]. destruct H as [[x ->]|[c ->]]; eauto.
    + intros [[? [-> [-> [[S T] [B H]]]]]|[]]. split; [|reflexivity]. do 3 (split; [assumption|]). destruct H as [[x H]|[c H]]; eexists; (split; [exact H|]); eauto.
Qed.
Lemma if_range_tag : follows (check_if_range_tag n p some_q q) (rules_if_range_tag E n p q).
Proof.
  eapply does_to; [unfold check_if_range_tag; eapply does_when; [apply tests_and; [test|intro; apply tests_and; [test|intro; apply tests_and; [test|intro]]]|intro; walk]|].
  - eapply tests_get; [gets|unique|]. intros v _. cbv beta. eapply tests_get; [gets|unique|]. intros e _. cbv beta. apply tests_not. apply tests_strong.
  - open_table. cbn [j_who j_msg of_response of_request]. split.
    + intros [[S [[v [V T]] [[e0 [V0 R]] [v' [V' [e' [X' N]]]]]]] ->]. rewrite (header_value_unique V' V) in N. rewrite (header_value_unique V0 X') in R.
      left. eexists. split; [reflexivity|]. split; [reflexivity|]. exists v, e'. repeat (split; [assumption|]). exact N.
    + intros [[? [-> [-> [v [e' [S [V [T [X [R N]]]]]]]]]]|[]]. split; [|reflexivity]. split; [exact S|]. split; [exists v; auto|]. split; [exists e'; auto|]. exists v. split; [exact V|]. exists e'. auto.
Qed.
Lemma range_refused : follows (check_range_refused n p some_q q) (rules_range_refused E n p q).
Proof.
  eapply does_to; [unfold check_range_refused; eapply does_if; [meaning|intro; eapply does_then; [walk|eapply does_when; [apply tests_and; [exact tests_in_bytes|intro; test]|intro; walk]]|intro; walk]|]. table'.
Qed.

(** *** Caches *)
Hypothesis side_cache : forall e, due (rules_from_cache E n p) e -> W e.
Hypothesis side_stale : forall e, due (rules_stale E n p) e -> W e.
Lemma tests_cached : tests E W (yesM (from_cache n p some_q)) (cached E n p).
Proof. exact (does_side (does_yes (@does_from_cache E W http n p some_q)) side_cache). Qed.
Lemma tests_stale : tests E W (yesM (stale n p some_q)) (is_stale E p).
Proof. exact (does_side (does_yes (@does_stale E W http n p some_q)) side_stale). Qed.
Lemma cache_in_context : follows (check_cache_in_context n p some_q q) (rules_cache_in_context E n p q).
Proof.
  eapply does_to.
  - unfold check_cache_in_context. eapply does_when; [exact tests_cached|intro]. eapply does_then; [walk|]. eapply does_then.
    + eapply does_when; [unfold qcc; test|intro; walk].
    + eapply does_either; [unfold qcc; test|intro; walk|intro; walk].
  - open_table. unfold directs. cbn [j_who j_msg of_response of_request]. split.
    + intros [C [[M ->]|[[H ->]|[[D ->]|[D [H ->]]]]]]; [left|right; left|do 2 right; left|do 3 right; left]; eexists; (split; [reflexivity|]); (split; [reflexivity|]); auto.
    + intros [[? [-> [-> [C H]]]]|[[? [-> [-> [C H]]]]|[[? [-> [-> [C H]]]]|[[? [-> [-> [C [H K]]]]]|[]]]]]; (split; [exact C|]); auto 8.
Qed.
Lemma stale_in_context : follows (check_stale_in_context n p some_q q) (rules_stale_in_context E n p q).
Proof.
  assert (T : forall key, tests E W (v <- qcc q key ;; ret (is_none v)) (without E mq key)).
  { intro key. unfold qcc. eapply tests_iff; [eapply tests_directive; [exact http|reflexivity|intro; apply is_none_iff]|]. unfold without. split; [intros [v [H ->]]; exact H|intro H; eauto]. }
  eapply does_to; [unfold check_stale_in_context; eapply does_when; [|intro; walk]|].
  - apply tests_and; [exact tests_stale|intro; apply tests_and; [test|intro; apply tests_and; [test|intro; apply tests_and; [apply T|intro; apply tests_and; [apply T|intro; test]]]]].
  - open_table. cbn [j_who j_msg of_response of_request]. split; [intros [H ->]; left; eexists; split; [reflexivity|]; auto|]. intros [[? [-> [-> H]]]|[]]. auto.
Qed.
Lemma patch_response : follows (check_patch_response n p some_q q) (rules_patch_response E n p q).
Proof. eapply does_to; [unfold check_patch_response; walk|]. table'. Qed.

(** *** Preferences *)
Lemma applied : follows (check_applied n p some_q q) (rules_applied E n p q).
Proof.
  eapply does_to.
  - unfold check_applied. eapply does_each_item; [exact http|reflexivity|]. intros x X. eapply does_get; [apply (@does_preferences E W http q)|apply preferences_unique|]. intros ps _. cbv beta.
    eapply does_when; [apply tests_pure; apply iff_refl|intro; walk].
  - assert (N : forall ps x, negb (mem_val x ps) = true <-> forall y, In y ps -> veq y x = false).
    { intros ps x. unfold mem_val. rewrite negb_true_iff. split.
      - intros H y I. destruct (veq y x) eqn:V; [|reflexivity]. assert (K : existsb (fun z => veq z x) ps = true) by (apply existsb_exists; eauto). congruence.
      - intro H. destruct (existsb (fun z => veq z x) ps) eqn:K; [|reflexivity]. apply existsb_exists in K. destruct K as [y [I V]]. now rewrite (H y I) in V. }
    open_table. cbn [j_who j_msg of_response of_request]. split.
    + intros [x [X [ps [P [M [i [I [v [V ->]]]]]]]]]. left. eexists. split; [reflexivity|]. exists x, ps, i, v, (if is_none v then VStr [] else VTuple [VStr (s "="); v]).
      split; [exact X|]. split; [exact P|]. split; [now apply N|]. split; [exact I|]. split; [exact V|]. split; [|reflexivity].
      destruct (is_none v) eqn:Z; [left; apply is_none_iff in Z; auto|right; split; [|reflexivity]]. intro Q. apply is_none_iff in Q. congruence.
    + intros [[? [-> [x [ps [i [v [u [X [P [M [I [V [H ->]]]]]]]]]]]]]|[]]. exists x. split; [exact X|]. exists ps. split; [exact P|]. split; [now apply N|]. exists i. split; [exact I|]. exists v. split; [exact V|].
      destruct H as [[-> ->]|[Z ->]]; [reflexivity|]. destruct (is_none v) eqn:Q; [apply is_none_iff in Q; tauto|reflexivity].
Qed.

(** *** Together *)
Lemma silence_request_quiet : reports E W (silence_from_request n p some_q q) nothing.
Proof.
  unfold silence_from_request. eapply does_any; [apply (@quiet_items E W http q)|]. intros l _. eapply does_any with (R := fun _ => True).
  - unfold silence_ids. eapply returns_bind; [apply does_map with (R := fun _ _ => True)|].
    + intros x _. eapply returns_bind; [apply does_some|]. intros [a b] _. cbn [fst snd]. destruct a; try apply does_raise; apply does_ret; exact Logic.I.
    + intros ids _. apply does_ret. exact Logic.I.
  - intros ids _. apply does_silence.
Qed.
Lemma context_all : Forall2 follows (context_checks n p some_q q) ([] :: context_rules E n p q).
Proof.
  unfold context_checks, context_rules. rewrite early_iff.
  assert (A : Forall2 follows (if (st =? 103)%Z then [] else [check_options_patch n p some_q q; check_vary_prefer n p some_q q]) (if (st =? 103)%Z then [] else [rules_options_patch E n p q; rules_vary_prefer E n p q])).
  { destruct (st =? 103)%Z; [apply Forall2_nil|]. repeat apply Forall2_cons; [exact options_patch|exact vary_prefer|apply Forall2_nil]. }
  cbn [app]. repeat apply Forall2_cons; [exact silence_request_quiet|exact untyped|exact connect|exact head_body|exact te_to_http10|exact bad_host|exact proxy_transformed
      |exact proxy_via|exact switched|exact content_location|exact self_redirect|exact partial_put|exact safe_method
      |exact created_location|exact empty_body|exact asterisk_redirect|exact not_acceptable|exact length_required
      |exact no_request_body|exact expectation|exact common_upgrade|exact upgrade_required|exact version_refused|exact allowed_follows
      |exact not_modified_needed|exact no_precondition|exact partial_range|exact single_range|exact if_range_tag
      |exact if_range_metadata|exact range_refused|exact cache_in_context|exact stale_in_context|exact precondition_required
      |exact patch_response|exact sts_over_http|exact misdirected|exact applied|exact A].
Qed.
End Context.
