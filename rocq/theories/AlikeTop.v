(** The checks of requests, responses and exchanges whose fields are
    rearranged. *)
From Coq Require Import ZifyBool ZifyNat ZifyN String Permutation.
From Verif Require Import Base Earley Grammar Syntax Actions Text Structure Known Tables Header HeaderProofs Values P_Types Notices ChecksBase ChecksMessage ChecksRequest ChecksResponse Alike AlikeViews AlikeChecks.
Open Scope nat_scope.
Open Scope list_scope.
Unset Strict Implicit.
Local Open Scope string_scope.
Local Open Scope list_scope.

Ltac further := lazymatch goal with
  | |- sim _ _ _ (decoded_body _) _ => apply alike_decoded; assumption
  | |- sim _ _ _ (url_encoded_data _) _ => apply alike_urlencoded; assumption
  | |- sim _ _ _ (multipart_data _) _ => apply alike_multipart; assumption
  | |- sim _ _ _ (displayable_body _) _ => apply alike_displayable; assumption
  | |- sim _ _ _ (transformed_by_proxy _) _ => apply alike_transformed; assumption
  | |- sim _ _ _ (code_between _ _ _) _ => apply alike_between
  end.

Section Top.
Variable E : env.
Variable f : who -> place -> place.
Hypothesis http : parses_http (e_read E).
Hypothesis cases : forall a b, same_name a b -> (e_read E field_name a = None <-> e_read E field_name b = None).
Notation alike := (sim E f eq).

Lemma alike_silence_ids keep l : alike (silence_ids keep l) (silence_ids keep l).
Proof. unfold silence_ids. go none. Qed.
Lemma alike_endswith v x : alike (str_endswith v x) (str_endswith v x).
Proof. unfold str_endswith. go none. Qed.
Lemma alike_subsumes x y : alike (subsumes x y) (subsumes x y).
Proof. unfold subsumes. go ltac:(apply alike_endswith). Qed.
Lemma alike_first_subsumption l : alike (first_subsumption l) (first_subsumption l).
Proof. induction l as [|[x y] l IH]; cbn [first_subsumption]; [go none|]. apply sim_if; [apply alike_subsumes|go none|exact IH]. Qed.
Lemma alike_normalize v : alike (normalize v) (normalize v).
Proof. unfold normalize. go none. Qed.

(** ** Requests *)

Section Request.
Variables q q' : request.
Hypothesis Q : matched_request f q q'.
Lemma jq : matched_subject f (of_request q) (of_request q').
Proof. exact (of_request_matched Q). Qed.
Lemma meth : q_method q = q_method q'.
Proof. exact (mq_method Q). Qed.
Lemma target : q_target q = q_target q'.
Proof. exact (mq_target Q). Qed.
Lemma scheme_ : q_scheme q = q_scheme q'.
Proof. exact (mq_scheme Q). Qed.
Lemma qversion : m_version (q_msg q) = m_version (q_msg q').
Proof. exact (ma_version (mq_msg Q)). Qed.
Lemma qbody : m_body (q_msg q) = m_body (q_msg q').
Proof. exact (ma_body (mq_msg Q)). Qed.
Ltac start d := unfold d, method_in; cbv zeta; rewrite <- ?meth, <- ?target, <- ?scheme_, <- ?qversion, <- ?qbody; pose proof jq as J.

Lemma alike_target_form : alike (target_form q) (target_form q').
Proof. start target_form. go none. Qed.
Lemma alike_effective_uri : alike (effective_uri q) (effective_uri q').
Proof. start effective_uri. apply alike_bind; [apply alike_target_form|]. intro. go none. Qed.
Lemma alike_to_proxy : alike (is_to_proxy q) (is_to_proxy q').
Proof. start is_to_proxy. go ltac:(apply alike_target_form). Qed.
Lemma alike_query_params : alike (query_params q) (query_params q').
Proof. start query_params. apply alike_bind; [apply alike_effective_uri|]. intro. go none. Qed.
Lemma alike_has_body : alike (has_body q) (has_body q').
Proof. start has_body. go none. Qed.
Lemma alike_has_directive k : alike (has_directive q k) (has_directive q' k).
Proof. start has_directive. go none. Qed.
Lemma alike_wants k x : alike (wants q k x) (wants q' k x).
Proof. start wants. go none. Qed.
Ltac more := lazymatch goal with
  | |- sim _ _ _ (target_form _) _ => apply alike_target_form
  | |- sim _ _ _ (query_params _) _ => apply alike_query_params
  | |- sim _ _ _ (has_body _) _ => apply alike_has_body
  | |- sim _ _ _ (has_directive _ _) _ => apply alike_has_directive
  | |- sim _ _ _ (wants _ _ _) _ => apply alike_wants
  | |- sim _ _ _ (silence_ids _ _) _ => apply alike_silence_ids
  | |- sim _ _ _ (normalize _) _ => apply alike_normalize
  | |- sim _ _ _ (first_subsumption _) _ => apply alike_first_subsumption
  | |- _ => further
  end.
Ltac check d := start d; go ltac:(idtac; more).

Lemma a_silence_own : alike (silence_own q) (silence_own q').
Proof. check silence_own. Qed.
Lemma a_check_request_line : alike (check_request_line q) (check_request_line q').
Proof. check check_request_line. Qed.
Lemma a_check_uppercase : alike (check_uppercase q) (check_uppercase q').
Proof. check check_uppercase. Qed.
Lemma a_check_untyped_body : alike (check_untyped_body q) (check_untyped_body q').
Proof. check check_untyped_body. Qed.
Lemma a_check_length_needed : alike (check_length_needed q) (check_length_needed q').
Proof. check check_length_needed. Qed.
Lemma a_check_length_useless : alike (check_length_useless q) (check_length_useless q').
Proof. check check_length_useless. Qed.
Lemma a_check_te_chunked : alike (check_te_chunked q) (check_te_chunked q').
Proof. check check_te_chunked. Qed.
Lemma a_check_te_http2 : alike (check_te_http2 q) (check_te_http2 q').
Proof. check check_te_http2. Qed.
Lemma a_check_te_connection : alike (check_te_connection q) (check_te_connection q').
Proof. check check_te_connection. Qed.
Lemma a_check_host_missing : alike (check_host_missing q) (check_host_missing q').
Proof. check check_host_missing. Qed.
Lemma a_check_unexpected_body : alike (check_unexpected_body q) (check_unexpected_body q').
Proof. check check_unexpected_body. Qed.
Lemma a_check_options_body : alike (check_options_body q) (check_options_body q').
Proof. check check_options_body. Qed.
Lemma a_check_expect : alike (check_expect q) (check_expect q').
Proof. check check_expect. Qed.
Lemma a_check_max_forwards : alike (check_max_forwards q) (check_max_forwards q').
Proof. check check_max_forwards. Qed.
Lemma a_check_referer : alike (check_referer q) (check_referer q').
Proof. check check_referer. Qed.
Lemma a_check_user_agent : alike (check_user_agent q) (check_user_agent q').
Proof. check check_user_agent. Qed.
Lemma a_check_accept_encoding : alike (check_accept_encoding q) (check_accept_encoding q').
Proof. check check_accept_encoding. Qed.
Lemma a_check_if_match : alike (check_if_match q) (check_if_match q').
Proof. check check_if_match. Qed.
Lemma a_check_range : alike (check_range q) (check_range q').
Proof. check check_range. Qed.
Lemma a_check_if_range : alike (check_if_range q) (check_if_range q').
Proof. check check_if_range. Qed.
Lemma a_check_if_range_weak : alike (check_if_range_weak q) (check_if_range_weak q').
Proof. check check_if_range_weak. Qed.
Lemma a_check_cache_directives : alike (check_cache_directives q) (check_cache_directives q').
Proof. check check_cache_directives. Qed.
Lemma a_check_no_cache_pragma : alike (check_no_cache_pragma q) (check_no_cache_pragma q').
Proof. check check_no_cache_pragma. Qed.
Lemma a_check_request_warnings : alike (check_request_warnings q) (check_request_warnings q').
Proof. check check_request_warnings. Qed.
Lemma a_check_uncacheable_method : alike (check_uncacheable_method q) (check_uncacheable_method q').
Proof. check check_uncacheable_method. Qed.
Lemma a_check_directive_pairs : alike (check_directive_pairs q) (check_directive_pairs q').
Proof. start check_directive_pairs. unfold conflicting. cbv zeta. go ltac:(idtac; more). Qed.
Lemma a_check_authorization : alike (check_authorization q) (check_authorization q').
Proof. start check_authorization. unfold check_basic_auth, check_bearer_auth. cbv zeta. rewrite <- ?scheme_. go ltac:(idtac; more). Qed.
Lemma a_check_patch : alike (check_patch q) (check_patch q').
Proof. check check_patch. Qed.
Lemma a_check_h2c : alike (check_h2c q) (check_h2c q').
Proof. check check_h2c. Qed.
Lemma a_check_settings_option : alike (check_settings_option q) (check_settings_option q').
Proof. check check_settings_option. Qed.
Lemma a_check_settings : alike (check_settings q) (check_settings q').
Proof. check check_settings. Qed.
Lemma a_check_token_in_uri : alike (check_token_in_uri q) (check_token_in_uri q').
Proof. check check_token_in_uri. Qed.
Lemma a_check_token_in_body : alike (check_token_in_body q) (check_token_in_body q').
Proof. check check_token_in_body. Qed.
Lemma a_check_subsumptions : alike (check_subsumptions q) (check_subsumptions q').
Proof. check check_subsumptions. Qed.
Lemma a_check_duplicate_preferences : alike (check_duplicate_preferences q) (check_duplicate_preferences q').
Proof. check check_duplicate_preferences. Qed.
Lemma a_check_respond_async : alike (check_respond_async q) (check_respond_async q').
Proof. check check_respond_async. Qed.
Lemma a_check_return_minimal : alike (check_return_minimal q) (check_return_minimal q').
Proof. check check_return_minimal. Qed.
Lemma a_check_return_both : alike (check_return_both q) (check_return_both q').
Proof. check check_return_both. Qed.
Lemma a_check_handling_both : alike (check_handling_both q) (check_handling_both q').
Proof. check check_handling_both. Qed.
Lemma a_check_host_first : alike (check_host_first q) (check_host_first q').
Proof.
  start check_host_first. unfold sim, when, ifM, bind, andM, bind.
  pose proof (alike_present E J "Host") as P. unfold sim in P.
  destruct (present (of_request q) "Host" E) as [es [b|e]], (present (of_request q') "Host" E) as [es' [b'|e']]; try contradiction; [|exact Logic.I]. destruct P as [P <-].
  destruct b.
  2: { cbn -[filter]. unfold same_events in *. rewrite !app_nil_r. auto. }
  pose proof (ma_empty (mq_msg Q)) as M. destruct (header_entries (m_entries (q_msg q))) as [|e l], (header_entries (m_entries (q_msg q'))) as [|e' l'].
  - exact Logic.I.
  - destruct M as [M _]. discriminate (M eq_refl).
  - destruct M as [_ M]. discriminate (M eq_refl).
  - cbn [hd_error some_of ret]. unfold same_events in *.
    assert (C : forall b : bool, filter counts (fst ((if b then say (of_request q) 1032 [] else ret tt) E)) = []) by (intros [|]; reflexivity).
    assert (C' : forall b : bool, filter counts (fst ((if b then say (of_request q') 1032 [] else ret tt) E)) = []) by (intros [|]; reflexivity).
    destruct (negb (among (e_name e) ["Host"])), (negb (among (e_name e') ["Host"])); cbn -[filter]; rewrite !filter_app; cbn [filter counts N.eqb Pos.eqb negb]; rewrite ?app_nil_r; auto.
Qed.
Lemma a_check_request_headers : alike (check_request_headers q) (check_request_headers q').
Proof.
  start check_request_headers. eapply alike_loop; [exact (same_names J)|]. intros a b N. rewrite (header_flag_same N), (flag_same N).
  destruct (says_no _); go ltac:(idtac; more).
Qed.
Lemma a_check_head_preconditions : alike (check_head_preconditions q) (check_head_preconditions q').
Proof.
  start check_head_preconditions. destruct (one_of_strs _ _); [|go none]. eapply alike_loop; [exact (same_names J)|]. intros a b N. rewrite (flag_same N). go none.
Qed.
Lemma a_check_preconditions : alike (check_preconditions q) (check_preconditions q').
Proof.
  start check_preconditions. destruct (one_of_strs _ _); [|go none]. eapply alike_loop; [exact (same_names J)|]. intros a b N. rewrite (among_same N). go none.
Qed.
Lemma alike_request : alike (check_request q) (check_request q').
Proof.
  unfold check_request. apply alike_seq. unfold request_checks. cbv zeta. rewrite <- scheme_. apply Forall2_app; [follow a_silence_own; constructor|].
  apply Forall2_app; [exact (alike_message http cases jq _)|].
  follow a_check_request_line.
  follow a_check_uppercase.
  follow a_check_untyped_body.
  follow a_check_length_needed.
  follow a_check_length_useless.
  follow a_check_te_chunked.
  follow a_check_te_http2.
  follow a_check_te_connection.
  follow a_check_host_missing.
  follow a_check_host_first.
  follow a_check_request_headers.
  follow a_check_unexpected_body.
  follow a_check_options_body.
  follow a_check_expect.
  follow a_check_max_forwards.
  follow a_check_referer.
  follow a_check_user_agent.
  follow a_check_accept_encoding.
  follow a_check_if_match.
  follow a_check_head_preconditions.
  follow a_check_preconditions.
  follow a_check_range.
  follow a_check_if_range.
  follow a_check_if_range_weak.
  follow a_check_cache_directives.
  follow a_check_no_cache_pragma.
  follow a_check_request_warnings.
  follow a_check_uncacheable_method.
  follow a_check_directive_pairs.
  follow a_check_authorization.
  follow a_check_patch.
  follow a_check_h2c.
  follow a_check_settings_option.
  follow a_check_settings.
  follow a_check_token_in_uri.
  follow a_check_token_in_body.
  follow a_check_subsumptions.
  follow a_check_duplicate_preferences.
  follow a_check_respond_async.
  follow a_check_return_minimal.
  follow a_check_return_both.
  follow a_check_handling_both.
  constructor.
Qed.
End Request.

(** ** Responses *)

Section Response.
Variable n : nat.
Variables p p' : response.
Variables req req' : option request.
Hypothesis P : matched_response f n p p'.
Hypothesis R : matched_option f req req'.
Lemma jp : matched_subject f (of_response n p req) (of_response n p' req').
Proof. exact (of_response_matched P R). Qed.
Lemma stat : p_status p = p_status p'.
Proof. exact (mp_status P). Qed.
Lemma reas : p_reason p = p_reason p'.
Proof. exact (mp_reason P). Qed.
Lemma pversion : m_version (p_msg p) = m_version (p_msg p').
Proof. exact (ma_version (mp_msg P)). Qed.
Lemma pbody : m_body (p_msg p) = m_body (p_msg p').
Proof. exact (ma_body (mp_msg P)). Qed.
Lemma rtls : request_tls req = request_tls req'.
Proof. destruct R as [|q q' Q]; [reflexivity|]. cbn [request_tls]. now rewrite (mq_scheme Q). Qed.
Lemma alike_req {A} (k k' : request -> M A) d d' : (forall q q', matched_request f q q' -> alike (k q) (k' q')) -> alike d d' ->
  alike (match req with Some q => k q | None => d end) (match req' with Some q => k' q | None => d' end).
Proof. intros H K. destruct R as [|q q' Q]; [exact K|now apply H]. Qed.
Ltac start d := unfold d; unfold status_in, cacheability; cbv zeta; rewrite <- ?stat, <- ?reas, <- ?pversion, <- ?pbody, <- ?rtls; pose proof jp as J.

Lemma alike_cc k : alike (cc n p req k) (cc n p' req' k).
Proof. start cc. go none. Qed.
Lemma alike_cc_true k : alike (cc_true n p req k) (cc_true n p' req' k).
Proof. unfold cc_true. apply alike_bind; [apply alike_cc|]. intro. go none. Qed.
Lemma alike_cc_none k : alike (cc_none n p req k) (cc_none n p' req' k).
Proof. unfold cc_none. apply alike_bind; [apply alike_cc|]. intro. go none. Qed.
Lemma alike_cc_bare k : alike (cc_bare n p req k) (cc_bare n p' req' k).
Proof. unfold cc_bare. apply alike_bind; [apply alike_cc|]. intro. go none. Qed.
Ltac more := lazymatch goal with
  | |- sim _ _ _ (cc _ _ _ _) _ => apply alike_cc
  | |- sim _ _ _ (cc_true _ _ _ _) _ => apply alike_cc_true
  | |- sim _ _ _ (cc_none _ _ _ _) _ => apply alike_cc_none
  | |- sim _ _ _ (cc_bare _ _ _ _) _ => apply alike_cc_bare
  | |- sim _ _ _ (silence_ids _ _) _ => apply alike_silence_ids
  | |- _ => further
  end.
Lemma alike_from_cache_date : alike (from_cache_date n p req) (from_cache_date n p' req').
Proof. start from_cache_date. go none. Qed.
Lemma alike_cache_warning l : alike (first_cache_warning n p req l) (first_cache_warning n p' req' l).
Proof. pose proof jp as J. induction l as [|w l IH]; cbn [first_cache_warning]; [go none|]. go ltac:(first [apply IH|apply alike_between]). Qed.
Lemma alike_from_cache : alike (from_cache n p req) (from_cache n p' req').
Proof. start from_cache. destruct (existsb _ _); [go none|]. apply sim_if; [apply alike_from_cache_date|go none|]. apply sim_if; [go none|go none|]. apply alike_bind; [go none|]. intro. apply alike_cache_warning. Qed.
Lemma alike_heuristic : alike (heuristic_expiration n p req) (heuristic_expiration n p' req').
Proof. start heuristic_expiration. apply alike_bind; [apply alike_from_cache|]. intro. go ltac:(idtac; more). Qed.
Lemma alike_by_warning c r r' : alike r r' -> alike (stale_by_warning n p req c r) (stale_by_warning n p' req' c r').
Proof. intro K. start stale_by_warning. apply sim_if; [go none|go none|exact K]. Qed.
Lemma alike_lifetime : alike (lifetime n p req) (lifetime n p' req').
Proof. start lifetime. go none. Qed.
Lemma alike_stale : alike (stale n p req) (stale n p' req').
Proof. start stale. destruct (existsb _ _); [go none|]. apply alike_by_warning, alike_by_warning. go ltac:(first [more|apply alike_lifetime]). Qed.
Lemma alike_by_close : alike (delimited_by_close n p req) (delimited_by_close n p' req').
Proof. start delimited_by_close. apply sim_if; [go none|go none|]. apply alike_req; [|go none]. intros q q' Q. rewrite <- (mq_method Q). go none. Qed.
Lemma alike_yes m m' : alike m m' -> alike (yesM m) (yesM m').
Proof. intro K. unfold yesM. apply alike_bind; [exact K|]. intro. go none. Qed.
Lemma alike_filename v : alike (check_filename n p req v) (check_filename n p' req' v).
Proof. start check_filename. go none. Qed.
Lemma alike_filename_order v : alike (check_filename_order n p req v) (check_filename_order n p' req' v).
Proof. start check_filename_order. go none. Qed.
Lemma alike_blocked_by v : alike (is_blocked_by v) (is_blocked_by v).
Proof. unfold is_blocked_by. go none. Qed.
Lemma alike_byteranges : alike (check_byteranges n p req) (check_byteranges n p' req').
Proof. start check_byteranges. go ltac:(idtac; more). Qed.
Lemma alike_basic_challenge x v : alike (check_basic_challenge n p req x v) (check_basic_challenge n p' req' x v).
Proof. start check_basic_challenge. go none. Qed.
Lemma alike_bearer_in_header q q' : matched_request f q q' -> alike (bearer_in_header q) (bearer_in_header q').
Proof. intro Q. pose proof (of_request_matched Q). unfold bearer_in_header. go none. Qed.
Lemma alike_has_token q q' : matched_request f q q' -> alike (request_has_token q) (request_has_token q').
Proof.
  intro Q. pose proof (of_request_matched Q). unfold request_has_token. apply alike_or; [now apply alike_bearer_in_header|]. apply alike_or; [go ltac:(idtac; more)|].
  apply alike_bind; [now apply alike_query_params|]. intro. go none.
Qed.
Lemma alike_bearer_params v t : alike (check_bearer_params n p req v t) (check_bearer_params n p' req' v t).
Proof.
  start check_bearer_params. apply alike_bind; [go none|]. intro d. apply alike_bind; [go none|]. intros _. apply alike_bind; [go none|]. intros _. apply alike_bind.
  { apply alike_when; [|go none]. apply alike_and; [go none|]. apply alike_req; [|go none]. intros q q' Q. now apply alike_bearer_in_header. }
  intros _. apply alike_bind; [go none|]. intros _. apply alike_when; [|go none]. apply alike_and; [|go none]. apply alike_req; [|go none]. intros q q' Q.
  pose proof (of_request_matched Q). go none.
Qed.
Lemma alike_bearer_challenge v : alike (check_bearer_challenge n p req v) (check_bearer_challenge n p' req' v).
Proof.
  start check_bearer_challenge. apply alike_bind; [|intro; go ltac:(apply alike_bearer_params)]. apply alike_req; [|go none]. intros q q' Q. rewrite <- (mq_scheme Q).
  apply alike_bind; [go none|]. intros _. apply alike_bind; [now apply alike_has_token|]. intro. go none.
Qed.
Ltac most := lazymatch goal with
  | |- sim _ _ _ (yesM _) _ => apply alike_yes
  | |- sim _ _ _ (from_cache _ _ _) _ => apply alike_from_cache
  | |- sim _ _ _ (heuristic_expiration _ _ _) _ => apply alike_heuristic
  | |- sim _ _ _ (stale _ _ _) _ => apply alike_stale
  | |- sim _ _ _ (delimited_by_close _ _ _) _ => apply alike_by_close
  | |- sim _ _ _ (check_filename _ _ _ _) _ => apply alike_filename
  | |- sim _ _ _ (check_filename_order _ _ _ _) _ => apply alike_filename_order
  | |- sim _ _ _ (is_blocked_by _) _ => apply alike_blocked_by
  | |- sim _ _ _ (check_byteranges _ _ _) _ => apply alike_byteranges
  | |- sim _ _ _ (check_basic_challenge _ _ _ _ _) _ => apply alike_basic_challenge
  | |- sim _ _ _ (check_bearer_challenge _ _ _ _) _ => apply alike_bearer_challenge
  | |- _ => more
  end.
Ltac check d := start d; go ltac:(idtac; most).

Lemma a_silence_itself : alike (silence_itself n p req) (silence_itself n p' req').
Proof. check silence_itself. Qed.
Lemma a_check_reason : alike (check_reason n p req) (check_reason n p' req').
Proof. check check_reason. Qed.
Lemma a_check_status_range : alike (check_status_range n p req) (check_status_range n p' req').
Proof. check check_status_range. Qed.
Lemma a_check_close_option : alike (check_close_option n p req) (check_close_option n p' req').
Proof. check check_close_option. Qed.
Lemma a_check_response_headers : alike (check_response_headers n p req) (check_response_headers n p' req').
Proof. start check_response_headers. eapply alike_loop; [exact (same_names J)|]. intros a b N. rewrite (header_flag_same N). go none. Qed.
Lemma a_check_switching : alike (check_switching n p req) (check_switching n p' req').
Proof. check check_switching. Qed.
Lemma a_check_no_content_body : alike (check_no_content_body n p req) (check_no_content_body n p' req').
Proof. check check_no_content_body. Qed.
Lemma a_check_reset_content_body : alike (check_reset_content_body n p req) (check_reset_content_body n p' req').
Proof. check check_reset_content_body. Qed.
Lemma a_check_location_missing : alike (check_location_missing n p req) (check_location_missing n p' req').
Proof. check check_location_missing. Qed.
Lemma a_check_odd_status : alike (check_odd_status n p req) (check_odd_status n p' req').
Proof. check check_odd_status. Qed.
Lemma a_check_allow_missing : alike (check_allow_missing n p req) (check_allow_missing n p' req').
Proof. check check_allow_missing. Qed.
Lemma a_check_timeout_close : alike (check_timeout_close n p req) (check_timeout_close n p' req').
Proof. check check_timeout_close. Qed.
Lemma a_check_date_missing : alike (check_date_missing n p req) (check_date_missing n p' req').
Proof. check check_date_missing. Qed.
Lemma a_check_created_fragment : alike (check_created_fragment n p req) (check_created_fragment n p' req').
Proof. check check_created_fragment. Qed.
Lemma a_check_last_modified : alike (check_last_modified n p req) (check_last_modified n p' req').
Proof. check check_last_modified. Qed.
Lemma a_check_304_headers : alike (check_304_headers n p req) (check_304_headers n p' req').
Proof. start check_304_headers. destruct (existsb _ _); [|go none]. eapply alike_loop; [exact (same_names J)|]. intros a b N. rewrite (among_same N), (flag_same N). go none. Qed.
Lemma a_check_partial_content : alike (check_partial_content n p req) (check_partial_content n p' req').
Proof. check check_partial_content. Qed.
Lemma a_check_response_directives : alike (check_response_directives n p req) (check_response_directives n p' req').
Proof. check check_response_directives. Qed.
Lemma a_check_pragma_no_cache : alike (check_pragma_no_cache n p req) (check_pragma_no_cache n p' req').
Proof. check check_pragma_no_cache. Qed.
Lemma a_check_blocked_by : alike (check_blocked_by n p req) (check_blocked_by n p' req').
Proof. check check_blocked_by. Qed.
Lemma a_check_disposition : alike (check_disposition n p req) (check_disposition n p' req').
Proof. check check_disposition. Qed.
Lemma a_check_alt_svc : alike (check_alt_svc n p req) (check_alt_svc n p' req').
Proof. check check_alt_svc. Qed.
Lemma a_check_sts : alike (check_sts n p req) (check_sts n p' req').
Proof. check check_sts. Qed.
Lemma a_check_accept_patch : alike (check_accept_patch n p req) (check_accept_patch n p' req').
Proof. check check_accept_patch. Qed.
Lemma a_check_response_pairs : alike (check_response_pairs n p req) (check_response_pairs n p' req').
Proof. check check_response_pairs. Qed.
Lemma a_check_overridden : alike (check_overridden n p req) (check_overridden n p' req').
Proof. check check_overridden. Qed.
Lemma a_check_vary_host : alike (check_vary_host n p req) (check_vary_host n p' req').
Proof. check check_vary_host. Qed.
Lemma a_check_challenge_missing : alike (check_challenge_missing n p req) (check_challenge_missing n p' req').
Proof. check check_challenge_missing. Qed.
Lemma a_check_proxy_challenge_missing : alike (check_proxy_challenge_missing n p req) (check_proxy_challenge_missing n p' req').
Proof. check check_proxy_challenge_missing. Qed.
Lemma a_check_challenges : alike (check_challenges n p req) (check_challenges n p' req').
Proof. check check_challenges. Qed.
Lemma a_check_no_body_status : alike (check_no_body_status n p req) (check_no_body_status n p' req').
Proof. check check_no_body_status. Qed.
Lemma a_check_informational_close : alike (check_informational_close n p req) (check_informational_close n p' req').
Proof. check check_informational_close. Qed.
Lemma a_check_informational_metadata : alike (check_informational_metadata n p req) (check_informational_metadata n p' req').
Proof. start check_informational_metadata. eapply alike_loop; [exact (same_names J)|]. intros a b N. rewrite (flag_same N). go none. Qed.
Lemma a_check_location_useless : alike (check_location_useless n p req) (check_location_useless n p' req').
Proof. check check_location_useless. Qed.
Lemma a_check_retry_after : alike (check_retry_after n p req) (check_retry_after n p' req').
Proof. check check_retry_after. Qed.
Lemma a_check_content_range : alike (check_content_range n p req) (check_content_range n p' req').
Proof. check check_content_range. Qed.
Lemma a_check_from_cache : alike (check_from_cache n p req) (check_from_cache n p' req').
Proof. check check_from_cache. Qed.
Lemma a_check_heuristic : alike (check_heuristic n p req) (check_heuristic n p' req').
Proof. check check_heuristic. Qed.
Lemma a_check_stale : alike (check_stale n p req) (check_stale n p' req').
Proof. check check_stale. Qed.
Lemma a_check_immutable : alike (check_immutable n p req) (check_immutable n p' req').
Proof. check check_immutable. Qed.
Lemma a_check_allow : alike (check_allow n p req) (check_allow n p' req').
Proof. check check_allow. Qed.
Lemma a_check_via_missing : alike (check_via_missing n p req) (check_via_missing n p' req').
Proof. check check_via_missing. Qed.
Lemma alike_itself : alike (check_response_itself n p req) (check_response_itself n p' req').
Proof.
  unfold check_response_itself. apply alike_seq. unfold response_checks, early, status_in. cbv zeta. rewrite <- stat, <- rtls. apply Forall2_app; [follow a_silence_itself; constructor|].
  apply Forall2_app; [exact (alike_message http cases jp _)|]. apply Forall2_app.
  - follow a_check_reason.
    follow a_check_status_range.
    follow a_check_close_option.
    follow a_check_response_headers.
    follow a_check_switching.
    follow a_check_no_content_body.
    follow a_check_reset_content_body.
    follow a_check_location_missing.
    follow a_check_odd_status.
    follow a_check_allow_missing.
    follow a_check_timeout_close.
    follow a_check_date_missing.
    follow a_check_created_fragment.
    follow a_check_last_modified.
    follow a_check_304_headers.
    follow a_check_partial_content.
    follow a_check_response_directives.
    follow a_check_pragma_no_cache.
    follow a_check_blocked_by.
    follow a_check_disposition.
    follow a_check_alt_svc.
    follow a_check_sts.
    follow a_check_accept_patch.
    follow a_check_response_pairs.
    follow a_check_overridden.
    follow a_check_vary_host.
    follow a_check_challenge_missing.
    follow a_check_proxy_challenge_missing.
    follow a_check_challenges.
    constructor.
  - destruct (existsb _ _); [constructor|].
    follow a_check_no_body_status.
    follow a_check_informational_close.
    follow a_check_informational_metadata.
    follow a_check_location_useless.
    follow a_check_retry_after.
    follow a_check_content_range.
    follow a_check_from_cache.
    follow a_check_heuristic.
    follow a_check_stale.
    follow a_check_immutable.
    follow a_check_allow.
    follow a_check_via_missing.
    constructor.
Qed.

(** ** Responses to a request *)

Variables q q' : request.
Hypothesis Q : matched_request f q q'.
Ltac begin d := unfold d; unfold status_in, by_method, method_allowed, same_version, scheme_given; cbv zeta; rewrite <- ?stat, <- ?reas, <- ?pversion, <- ?pbody, <- ?rtls,
  <- ?(meth Q), <- ?(target Q), <- ?(scheme_ Q), <- ?(qversion Q), <- ?(qbody Q); pose proof jp as J; pose proof (jq Q) as K.
Lemma alike_same_uri x : alike (same_uri n p req q x) (same_uri n p' req' q' x).
Proof. begin same_uri. apply alike_and; [go none|]. apply alike_bind; [now apply alike_effective_uri|]. intro. go none. Qed.
Lemma alike_common l : alike (first_common n p req q l) (first_common n p' req' q' l).
Proof. induction l as [|x l IH]; cbn [first_common]; [go none|]. begin status_in. apply sim_if; [go none|go none|exact IH]. Qed.
Lemma alike_weak a b : alike (weak_equiv a b) (weak_equiv a b).
Proof. unfold weak_equiv. go none. Qed.
Lemma alike_strong a b : alike (strong_equiv a b) (strong_equiv a b).
Proof. unfold strong_equiv. go ltac:(apply alike_weak). Qed.
Lemma alike_bytes_range : alike (bytes_range q) (bytes_range q').
Proof. begin bytes_range. go none. Qed.
Lemma alike_size v : alike (size_of v) (size_of v).
Proof. unfold size_of. go none. Qed.
Lemma alike_qcc k : alike (qcc q k) (qcc q' k).
Proof. begin qcc. go none. Qed.
Ltac whole := lazymatch goal with
  | |- sim _ _ _ (target_form _) _ => apply alike_target_form; assumption
  | |- sim _ _ _ (effective_uri _) _ => apply alike_effective_uri; assumption
  | |- sim _ _ _ (is_to_proxy _) _ => apply alike_to_proxy; assumption
  | |- sim _ _ _ (same_uri _ _ _ _ _) _ => apply alike_same_uri
  | |- sim _ _ _ (first_common _ _ _ _ _) _ => apply alike_common
  | |- sim _ _ _ (weak_equiv _ _) _ => apply alike_weak
  | |- sim _ _ _ (strong_equiv _ _) _ => apply alike_strong
  | |- sim _ _ _ (bytes_range _) _ => apply alike_bytes_range
  | |- sim _ _ _ (size_of _) _ => apply alike_size
  | |- sim _ _ _ (qcc _ _) _ => apply alike_qcc
  | |- _ => most
  end.
Ltac check2 d := begin d; go ltac:(idtac; whole).
Lemma same_just l l' k : rearranged same_name l l' -> is_just l k = is_just l' k.
Proof.
  intro H. pose proof (rearranged_length H) as L. unfold is_just. destruct l, l'; try discriminate L; [reflexivity|]. apply (rearranged_forallb (R := same_name)); [|exact H].
  intros x y N. now apply among_same.
Qed.

Lemma a_silence_from_request : alike (silence_from_request n p req q) (silence_from_request n p' req' q').
Proof. check2 silence_from_request. Qed.
Lemma a_check_untyped : alike (check_untyped n p req q) (check_untyped n p' req' q').
Proof. check2 check_untyped. Qed.
Lemma a_check_connect : alike (check_connect n p req q) (check_connect n p' req' q').
Proof. check2 check_connect. Qed.
Lemma a_check_head_body : alike (check_head_body n p req q) (check_head_body n p' req' q').
Proof. check2 check_head_body. Qed.
Lemma a_check_te_to_http10 : alike (check_te_to_http10 n p req q) (check_te_to_http10 n p' req' q').
Proof. check2 check_te_to_http10. Qed.
Lemma a_check_bad_host : alike (check_bad_host n p req q) (check_bad_host n p' req' q').
Proof. begin check_bad_host. pose proof (forall2_size (ma_fields (mq_msg Q) (s "Host"))) as L. rewrite <- L. go none. Qed.
Lemma a_check_proxy_transformed : alike (check_proxy_transformed n p req q) (check_proxy_transformed n p' req' q').
Proof. check2 check_proxy_transformed. Qed.
Lemma a_check_proxy_via : alike (check_proxy_via n p req q) (check_proxy_via n p' req' q').
Proof. check2 check_proxy_via. Qed.
Lemma a_check_switched : alike (check_switched n p req q) (check_switched n p' req' q').
Proof. check2 check_switched. Qed.
Lemma a_check_content_location : alike (check_content_location n p req q) (check_content_location n p' req' q').
Proof. check2 check_content_location. Qed.
Lemma a_check_self_redirect : alike (check_self_redirect n p req q) (check_self_redirect n p' req' q').
Proof. check2 check_self_redirect. Qed.
Lemma a_check_partial_put : alike (check_partial_put n p req q) (check_partial_put n p' req' q').
Proof. check2 check_partial_put. Qed.
Lemma a_check_safe_method : alike (check_safe_method n p req q) (check_safe_method n p' req' q').
Proof. check2 check_safe_method. Qed.
Lemma a_check_created_location : alike (check_created_location n p req q) (check_created_location n p' req' q').
Proof. check2 check_created_location. Qed.
Lemma a_check_empty_body : alike (check_empty_body n p req q) (check_empty_body n p' req' q').
Proof. check2 check_empty_body. Qed.
Lemma a_check_asterisk_redirect : alike (check_asterisk_redirect n p req q) (check_asterisk_redirect n p' req' q').
Proof. check2 check_asterisk_redirect. Qed.
Lemma a_check_not_acceptable : alike (check_not_acceptable n p req q) (check_not_acceptable n p' req' q').
Proof. begin check_not_acceptable. destruct (existsb _ _); [|go none]. pose proof (same_clearly K hk_proactive_conneg) as C. pose proof (rearranged_length C) as L.
  destruct (clearly (of_request q) hk_proactive_conneg), (clearly (of_request q') hk_proactive_conneg); try discriminate L; [go none|]. rewrite <- (same_just "Accept-Language" C). go none. Qed.
Lemma a_check_length_required : alike (check_length_required n p req q) (check_length_required n p' req' q').
Proof. check2 check_length_required. Qed.
Lemma a_check_no_request_body : alike (check_no_request_body n p req q) (check_no_request_body n p' req' q').
Proof. check2 check_no_request_body. Qed.
Lemma a_check_expectation : alike (check_expectation n p req q) (check_expectation n p' req' q').
Proof. check2 check_expectation. Qed.
Lemma a_check_common_upgrade : alike (check_common_upgrade n p req q) (check_common_upgrade n p' req' q').
Proof. check2 check_common_upgrade. Qed.
Lemma a_check_upgrade_required : alike (check_upgrade_required n p req) (check_upgrade_required n p' req').
Proof. check2 check_upgrade_required. Qed.
Lemma a_check_version_refused : alike (check_version_refused n p req q) (check_version_refused n p' req' q').
Proof. check2 check_version_refused. Qed.
Lemma a_check_allowed : alike (check_allowed n p req q) (check_allowed n p' req' q').
Proof. check2 check_allowed. Qed.
Lemma a_check_not_modified_needed : alike (check_not_modified_needed n p req q) (check_not_modified_needed n p' req' q').
Proof. check2 check_not_modified_needed. Qed.
Lemma a_check_no_precondition : alike (check_no_precondition n p req q) (check_no_precondition n p' req' q').
Proof. begin check_no_precondition. destruct (existsb _ _); [|go none]. destruct (_ && _); [go none|]. pose proof (same_clearly K hk_precondition) as C. pose proof (rearranged_length C) as L.
  destruct (clearly (of_request q) hk_precondition) as [|h t], (clearly (of_request q') hk_precondition) as [|h' t']; try discriminate L; [go none|].
  assert (F : forall k, forallb (fun x => among x k) (h :: t) = forallb (fun x => among x k) (h' :: t')).
  { intro k. apply (rearranged_forallb (R := same_name)); [|exact C]. intros x y N. now apply among_same. }
  rewrite <- (same_just "If-Modified-Since" C), <- F. go none. Qed.
Lemma a_check_partial_range : alike (check_partial_range n p req q) (check_partial_range n p' req' q').
Proof. check2 check_partial_range. Qed.
Lemma a_check_single_range : alike (check_single_range n p req q) (check_single_range n p' req' q').
Proof. check2 check_single_range. Qed.
Lemma a_check_if_range_tag : alike (check_if_range_tag n p req q) (check_if_range_tag n p' req' q').
Proof. check2 check_if_range_tag. Qed.
Lemma a_check_if_range_metadata : alike (check_if_range_metadata n p req q) (check_if_range_metadata n p' req' q').
Proof. begin check_if_range_metadata. apply alike_when; [go none|]. eapply alike_loop; [exact (same_names J)|]. intros a b N. rewrite (flag_same N), (among_same N). go none. Qed.
Lemma a_check_range_refused : alike (check_range_refused n p req q) (check_range_refused n p' req' q').
Proof. check2 check_range_refused. Qed.
Lemma a_check_cache_in_context : alike (check_cache_in_context n p req q) (check_cache_in_context n p' req' q').
Proof. check2 check_cache_in_context. Qed.
Lemma a_check_stale_in_context : alike (check_stale_in_context n p req q) (check_stale_in_context n p' req' q').
Proof. check2 check_stale_in_context. Qed.
Lemma a_check_precondition_required : alike (check_precondition_required n p req q) (check_precondition_required n p' req' q').
Proof. begin check_precondition_required. destruct (existsb _ _); [|go none]. pose proof (same_clearly K hk_precondition) as C. pose proof (rearranged_length C) as L.
  destruct (clearly (of_request q) hk_precondition), (clearly (of_request q') hk_precondition); try discriminate L; [go none|].
  split; [|reflexivity]. apply rearranged_one. apply same_1200. Qed.
Lemma a_check_patch_response : alike (check_patch_response n p req q) (check_patch_response n p' req' q').
Proof. check2 check_patch_response. Qed.
Lemma a_check_sts_over_http : alike (check_sts_over_http n p req q) (check_sts_over_http n p' req' q').
Proof. check2 check_sts_over_http. Qed.
Lemma a_check_misdirected : alike (check_misdirected n p req q) (check_misdirected n p' req' q').
Proof. check2 check_misdirected. Qed.
Lemma a_check_applied : alike (check_applied n p req q) (check_applied n p' req' q').
Proof. check2 check_applied. Qed.
Lemma a_check_options_patch : alike (check_options_patch n p req q) (check_options_patch n p' req' q').
Proof. check2 check_options_patch. Qed.
Lemma a_check_vary_prefer : alike (check_vary_prefer n p req q) (check_vary_prefer n p' req' q').
Proof. check2 check_vary_prefer. Qed.
Lemma alike_in_context : alike (check_response_in_context n p req q) (check_response_in_context n p' req' q').
Proof.
  unfold check_response_in_context. apply alike_seq. unfold context_checks, early, status_in. cbv zeta. rewrite <- stat. apply Forall2_app.
  - follow a_silence_from_request.
    follow a_check_untyped.
    follow a_check_connect.
    follow a_check_head_body.
    follow a_check_te_to_http10.
    follow a_check_bad_host.
    follow a_check_proxy_transformed.
    follow a_check_proxy_via.
    follow a_check_switched.
    follow a_check_content_location.
    follow a_check_self_redirect.
    follow a_check_partial_put.
    follow a_check_safe_method.
    follow a_check_created_location.
    follow a_check_empty_body.
    follow a_check_asterisk_redirect.
    follow a_check_not_acceptable.
    follow a_check_length_required.
    follow a_check_no_request_body.
    follow a_check_expectation.
    follow a_check_common_upgrade.
    follow a_check_upgrade_required.
    follow a_check_version_refused.
    follow a_check_allowed.
    follow a_check_not_modified_needed.
    follow a_check_no_precondition.
    follow a_check_partial_range.
    follow a_check_single_range.
    follow a_check_if_range_tag.
    follow a_check_if_range_metadata.
    follow a_check_range_refused.
    follow a_check_cache_in_context.
    follow a_check_stale_in_context.
    follow a_check_precondition_required.
    follow a_check_patch_response.
    follow a_check_sts_over_http.
    follow a_check_misdirected.
    follow a_check_applied.
    constructor.
  - destruct (existsb _ _); [constructor|].
    follow a_check_options_patch.
    follow a_check_vary_prefer.
    constructor.
Qed.
End Response.

Lemma alike_response n p p' req req' : matched_response f n p p' -> matched_option f req req' -> alike (check_response n p req) (check_response n p' req').
Proof.
  intros P R. unfold check_response. apply alike_bind; [now apply alike_itself|]. intros _. destruct R as [|q q' Q]; [go none|].
  apply alike_in_context; [exact P|now constructor|exact Q].
Qed.

(** ** Exchanges *)

Inductive matched_responses : nat -> list response -> list response -> Prop :=
| no_responses n : matched_responses n [] []
| more_responses n p p' l l' : matched_response f n p p' -> matched_responses (S n) l l' -> matched_responses n (p :: l) (p' :: l').
Lemma alike_responses req req' n final l l' : matched_option f req req' -> matched_responses n l l' ->
  alike (check_responses_from req n final l) (check_responses_from req' n final l').
Proof.
  intros R H. revert final. induction H as [n|n p p' l l' P H IH]; intro final; cbn [check_responses_from]; [go none|].
  apply alike_bind; [go none|]. intros _. apply alike_bind; [now apply alike_response|]. intros _. rewrite <- (mp_status P). apply IH.
Qed.
Lemma alike_continue expect n l l' : matched_responses n l l' -> alike (check_continue expect n l) (check_continue expect n l').
Proof.
  intro H. revert expect. induction H as [n|n p p' l l' P H IH]; intro expect; cbn [check_continue]; cbv zeta; [go none|]. rewrite <- (mp_status P).
  apply alike_bind; [go none|]. intros _. apply IH.
Qed.
Definition matched_exchange (x x' : exchange) : Prop := matched_option f (x_request x) (x_request x') /\ matched_responses 0 (x_responses x) (x_responses x').
Theorem alike_exchange x x' : matched_exchange x x' -> alike (check_exchange x) (check_exchange x').
Proof.
  intros [Q R]. unfold check_exchange. apply alike_bind.
  - destruct Q as [|q q' Q]; [go none|]. apply alike_bind; [now apply alike_request|]. intros _. apply alike_equal. now apply of_request_matched.
  - intro expect. apply alike_bind; [now apply alike_responses|]. intros _. now apply alike_continue.
Qed.
End Top.
