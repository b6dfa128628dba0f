(** What the checks of a message, an exchange can report; which check reports
    which notice. *)
From Coq Require Import ZifyBool ZifyNat ZifyN String.
From Verif Require Import Base Earley Grammar Syntax Actions Nested P_Types Text Structure Known Tables Header Values Notices ChecksBase ChecksLogic ChecksMessage ChecksRequest ChecksResponse ChecksSays.
Open Scope nat_scope.
Open Scope list_scope.
Unset Strict Implicit.
Local Open Scope string_scope.
Local Open Scope list_scope.

(** ** Tables of the lists of checks *)
Definition message_tables (early : bool) : list table :=
  [t_check_each_header; t_check_payload; t_check_trailer_chunked; t_check_trailers; t_check_te_and_cl; t_check_connection; t_check_media_type;
   t_check_json_charset; t_check_future_date; t_check_warnings; t_check_pragma; t_check_upgrade_tokens] ++
  (if early then [] else [t_check_upgrade_option; t_check_transformed; t_check_http2_headers]).
Definition request_tables : list table :=
  message_tables false ++
  [t_check_request_line; t_check_uppercase; t_check_untyped_body; t_check_length_needed; t_check_length_useless; t_check_te_chunked; t_check_te_http2;
   t_check_te_connection; t_check_host_missing; t_check_host_first; t_check_request_headers; t_check_unexpected_body; t_check_options_body;
   t_check_expect; t_check_max_forwards; t_check_referer; t_check_user_agent; t_check_accept_encoding; t_check_if_match; t_check_head_preconditions;
   t_check_preconditions; t_check_range; t_check_if_range; t_check_if_range_weak; t_check_cache_directives; t_check_no_cache_pragma;
   t_check_request_warnings; t_check_uncacheable_method; t_check_directive_pairs; t_check_authorization; t_check_patch; t_check_h2c;
   t_check_settings_option; t_check_settings; t_check_token_in_uri; t_check_token_in_body; t_check_subsumptions; t_check_duplicate_preferences;
   t_check_respond_async; t_check_return_minimal; t_check_return_both; t_check_handling_both].
Definition response_tables (early : bool) : list (table * table) :=
  map (fun t => (t, [])) (message_tables early) ++
  [(t_check_reason, tq_check_reason); (t_check_status_range, tq_check_status_range); (t_check_close_option, tq_check_close_option);
   (t_check_response_headers, tq_check_response_headers); (t_check_switching, tq_check_switching); (t_check_no_content_body, tq_check_no_content_body);
   (t_check_reset_content_body, tq_check_reset_content_body); (t_check_location_missing, tq_check_location_missing); (t_check_odd_status, tq_check_odd_status);
   (t_check_allow_missing, tq_check_allow_missing); (t_check_timeout_close, tq_check_timeout_close); (t_check_date_missing, tq_check_date_missing);
   (t_check_created_fragment, tq_check_created_fragment); (t_check_last_modified, tq_check_last_modified); (t_check_304_headers, tq_check_304_headers);
   (t_check_partial_content, tq_check_partial_content); (t_check_response_directives, tq_check_response_directives);
   (t_check_pragma_no_cache, tq_check_pragma_no_cache); (t_check_blocked_by, tq_check_blocked_by); (t_check_disposition, tq_check_disposition);
   (t_check_alt_svc, tq_check_alt_svc); (t_check_sts, tq_check_sts); (t_check_accept_patch, tq_check_accept_patch); (t_check_response_pairs, tq_check_response_pairs);
   (t_check_overridden, tq_check_overridden); (t_check_vary_host, tq_check_vary_host); (t_check_challenge_missing, tq_check_challenge_missing);
   (t_check_proxy_challenge_missing, tq_check_proxy_challenge_missing); (t_check_challenges, tq_check_challenges)] ++
  (if early then [] else
  [(t_check_no_body_status, tq_check_no_body_status); (t_check_informational_close, tq_check_informational_close);
   (t_check_informational_metadata, tq_check_informational_metadata); (t_check_location_useless, tq_check_location_useless);
   (t_check_retry_after, tq_check_retry_after); (t_check_content_range, tq_check_content_range); (t_check_from_cache, tq_check_from_cache);
   (t_check_heuristic, tq_check_heuristic); (t_check_stale, tq_check_stale); (t_check_immutable, tq_check_immutable); (t_check_allow, tq_check_allow);
   (t_check_via_missing, tq_check_via_missing)]).
Definition context_tables (early : bool) : list (table * table) :=
  [(t_check_untyped, tq_check_untyped); (t_check_connect, tq_check_connect); (t_check_head_body, tq_check_head_body);
   (t_check_te_to_http10, tq_check_te_to_http10); (t_check_bad_host, tq_check_bad_host); (t_check_proxy_transformed, tq_check_proxy_transformed);
   (t_check_proxy_via, tq_check_proxy_via); (t_check_switched, tq_check_switched); (t_check_content_location, tq_check_content_location);
   (t_check_self_redirect, tq_check_self_redirect); (t_check_partial_put, tq_check_partial_put); (t_check_safe_method, tq_check_safe_method);
   (t_check_created_location, tq_check_created_location); (t_check_empty_body, tq_check_empty_body); (t_check_asterisk_redirect, tq_check_asterisk_redirect);
   (t_check_not_acceptable, tq_check_not_acceptable); (t_check_length_required, tq_check_length_required);
   (t_check_no_request_body, tq_check_no_request_body); (t_check_expectation, tq_check_expectation); (t_check_common_upgrade, tq_check_common_upgrade);
   (t_check_upgrade_required, tq_check_upgrade_required); (t_check_version_refused, tq_check_version_refused); (t_check_allowed, tq_check_allowed);
   (t_check_not_modified_needed, tq_check_not_modified_needed); (t_check_no_precondition, tq_check_no_precondition); (t_check_partial_range, tq_check_partial_range);
   (t_check_single_range, tq_check_single_range); (t_check_if_range_tag, tq_check_if_range_tag); (t_check_if_range_metadata, tq_check_if_range_metadata);
   (t_check_range_refused, tq_check_range_refused); (t_check_cache_in_context, tq_check_cache_in_context); (t_check_stale_in_context, tq_check_stale_in_context);
   (t_check_precondition_required, tq_check_precondition_required); (t_check_patch_response, tq_check_patch_response);
   (t_check_sts_over_http, tq_check_sts_over_http); (t_check_misdirected, tq_check_misdirected); (t_check_applied, tq_check_applied)] ++
  (if early then [] else [(t_check_options_patch, tq_check_options_patch); (t_check_vary_prefer, tq_check_vary_prefer)]).

Section Top.
Variable E : env.
Hypothesis http : parses_http (e_read E).

(** A check reports what its table says. *)
Definition follows (w : who) (g : msg) (t : table) (m : M unit) : Prop := forall P, hears E P w g t -> emits E P m.
Definition follows2 (n : nat) (p : response) (req : option request) (t : table * table) (m : M unit) : Prop :=
  forall P, hears E P (Resp n) (p_msg p) (fst t) -> (forall q, req = Some q -> hears E P Req (q_msg q) (snd t)) -> emits E P m.

Lemma message_follows j tls : Forall2 (follows (j_who j) (j_msg j)) (message_tables (is_early j)) (message_checks j tls).
Proof.
  unfold message_tables, message_checks. apply Forall2_app.
  - repeat apply Forall2_cons; try apply Forall2_nil; intros P H.
    + apply check_each_header_says; assumption. + apply check_payload_says; assumption. + apply check_trailer_chunked_says; assumption. + apply check_trailers_says; assumption. + apply check_te_and_cl_says; assumption. + apply check_connection_says; assumption.
    + apply check_media_type_says; assumption. + apply check_json_charset_says; assumption. + apply check_future_date_says; assumption. + apply check_warnings_says; assumption. + apply check_pragma_says; assumption. + apply check_upgrade_tokens_says; assumption.
  - destruct (is_early j); [apply Forall2_nil|]. repeat apply Forall2_cons; try apply Forall2_nil; intros P H.
    + apply check_upgrade_option_says; assumption. + apply check_transformed_says; assumption. + apply check_http2_headers_says; assumption.
Qed.
Lemma request_follows q : Forall2 (follows Req (q_msg q)) request_tables (tl (request_checks q)).
Proof.
  unfold request_tables, request_checks. match goal with |- Forall2 _ _ (tl ([?a] ++ ?l)) => change (tl ([a] ++ l)) with l end. apply Forall2_app.
  - exact (message_follows (of_request q) (scheme_tls (q_scheme q))).
  - repeat apply Forall2_cons; try apply Forall2_nil; intros P H.
    + apply check_request_line_says; assumption. + apply check_uppercase_says; assumption. + apply check_untyped_body_says; assumption. + apply check_length_needed_says; assumption. + apply check_length_useless_says; assumption. + apply check_te_chunked_says; assumption.
    + apply check_te_http2_says; assumption. + apply check_te_connection_says; assumption. + apply check_host_missing_says; assumption. + apply check_host_first_says; assumption. + apply check_request_headers_says; assumption. + apply check_unexpected_body_says; assumption.
    + apply check_options_body_says; assumption. + apply check_expect_says; assumption. + apply check_max_forwards_says; assumption. + apply check_referer_says; assumption. + apply check_user_agent_says; assumption. + apply check_accept_encoding_says; assumption.
    + apply check_if_match_says; assumption. + apply check_head_preconditions_says; assumption. + apply check_preconditions_says; assumption. + apply check_range_says; assumption. + apply check_if_range_says; assumption. + apply check_if_range_weak_says; assumption.
    + apply check_cache_directives_says; assumption. + apply check_no_cache_pragma_says; assumption. + apply check_request_warnings_says; assumption. + apply check_uncacheable_method_says; assumption. + apply check_directive_pairs_says; assumption. + apply check_authorization_says; assumption.
    + apply check_patch_says; assumption. + apply check_h2c_says; assumption. + apply check_settings_option_says; assumption. + apply check_settings_says; assumption. + apply check_token_in_uri_says; assumption. + apply check_token_in_body_says; assumption.
    + apply check_subsumptions_says; assumption. + apply check_duplicate_preferences_says; assumption. + apply check_respond_async_says; assumption. + apply check_return_minimal_says; assumption. + apply check_return_both_says; assumption. + apply check_handling_both_says; assumption.
Qed.
Lemma response_follows n p req : Forall2 (follows2 n p req) (response_tables (p_status p =? 103)%Z) (tl (response_checks n p req)).
Proof.
  unfold response_tables, response_checks. match goal with |- Forall2 _ _ (tl ([?a] ++ ?l)) => change (tl ([a] ++ l)) with l end. apply Forall2_app.
  - assert (S : is_early (of_response n p req) = (p_status p =? 103)%Z) by reflexivity. rewrite <- S.
    pose proof (message_follows (of_response n p req) (request_tls req)) as F. cbn [j_who j_msg of_response] in F.
    induction F as [|t m ts ms A F IH]; [constructor|]. constructor; [|exact IH]. intros P H HQ. exact (A P H).
  - apply Forall2_app.
    { repeat apply Forall2_cons; try apply Forall2_nil; intros P H HQ.
    + apply check_reason_says; assumption. + apply check_status_range_says; assumption. + apply check_close_option_says; assumption. + apply check_response_headers_says; assumption. + apply check_switching_says; assumption. + apply check_no_content_body_says; assumption.
    + apply check_reset_content_body_says; assumption. + apply check_location_missing_says; assumption. + apply check_odd_status_says; assumption. + apply check_allow_missing_says; assumption. + apply check_timeout_close_says; assumption. + apply check_date_missing_says; assumption.
    + apply check_created_fragment_says; assumption. + apply check_last_modified_says; assumption. + apply check_304_headers_says; assumption. + apply check_partial_content_says; assumption. + apply check_response_directives_says; assumption. + apply check_pragma_no_cache_says; assumption.
    + apply check_blocked_by_says; assumption. + apply check_disposition_says; assumption. + apply check_alt_svc_says; assumption. + apply check_sts_says; assumption. + apply check_accept_patch_says; assumption. + apply check_response_pairs_says; assumption.
    + apply check_overridden_says; assumption. + apply check_vary_host_says; assumption. + apply check_challenge_missing_says; assumption. + apply check_proxy_challenge_missing_says; assumption. + apply check_challenges_says; assumption. }
    assert (S : early p = (p_status p =? 103)%Z) by (unfold early, status_in; cbn [existsb]; apply orb_false_r). rewrite <- S.
    destruct (early p); [apply Forall2_nil|]. repeat apply Forall2_cons; try apply Forall2_nil; intros P H HQ.
    + apply check_no_body_status_says; assumption. + apply check_informational_close_says; assumption. + apply check_informational_metadata_says; assumption. + apply check_location_useless_says; assumption. + apply check_retry_after_says; assumption. + apply check_content_range_says; assumption.
    + apply check_from_cache_says; assumption. + apply check_heuristic_says; assumption. + apply check_stale_says; assumption. + apply check_immutable_says; assumption. + apply check_allow_says; assumption. + apply check_via_missing_says; assumption.
Qed.
Lemma context_follows n p req q : req = Some q -> Forall2 (follows2 n p req) (context_tables (p_status p =? 103)%Z) (tl (context_checks n p req q)).
Proof.
  intro R. subst req. unfold context_tables, context_checks. match goal with |- Forall2 _ _ (tl ((?a :: ?k) ++ ?l)) => change (tl ((a :: k) ++ l)) with (k ++ l) end. apply Forall2_app.
  - repeat apply Forall2_cons; try apply Forall2_nil; intros P H HQ; specialize (HQ q eq_refl).
    + apply check_untyped_says; assumption. + apply check_connect_says; assumption. + apply check_head_body_says; assumption. + apply check_te_to_http10_says; assumption. + apply check_bad_host_says; assumption. + apply check_proxy_transformed_says; assumption.
    + apply check_proxy_via_says; assumption. + apply check_switched_says; assumption. + apply check_content_location_says; assumption. + apply check_self_redirect_says; assumption. + apply check_partial_put_says; assumption. + apply check_safe_method_says; assumption.
    + apply check_created_location_says; assumption. + apply check_empty_body_says; assumption. + apply check_asterisk_redirect_says; assumption. + apply check_not_acceptable_says; assumption. + apply check_length_required_says; assumption. + apply check_no_request_body_says; assumption.
    + apply check_expectation_says; assumption. + apply check_common_upgrade_says; assumption. + apply check_upgrade_required_says; [assumption|intros ? e; injection e as <-; assumption]. + apply check_version_refused_says; assumption. + apply check_allowed_says; assumption. + apply check_not_modified_needed_says; assumption.
    + apply check_no_precondition_says; assumption. + apply check_partial_range_says; assumption. + apply check_single_range_says; assumption. + apply check_if_range_tag_says; assumption. + apply check_if_range_metadata_says; assumption. + apply check_range_refused_says; assumption.
    + apply check_cache_in_context_says; assumption. + apply check_stale_in_context_says; assumption. + apply check_precondition_required_says; assumption. + apply check_patch_response_says; assumption. + apply check_sts_over_http_says; assumption. + apply check_misdirected_says; assumption.
    + apply check_applied_says; assumption.
  - assert (S : early p = (p_status p =? 103)%Z) by (unfold early, status_in; cbn [existsb]; apply orb_false_r). rewrite <- S.
    destruct (early p); [apply Forall2_nil|]. repeat apply Forall2_cons; try apply Forall2_nil; intros P H HQ; specialize (HQ q eq_refl).
    + apply check_options_patch_says; assumption. + apply check_vary_prefer_says; assumption.
Qed.
End Top.
