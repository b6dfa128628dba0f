(** The checks of messages whose fields are rearranged. *)
From Coq Require Import ZifyBool ZifyNat ZifyN String Permutation.
From Verif Require Import Base Earley Grammar Syntax Actions Text Structure Known Tables Header HeaderProofs Values P_Types Notices ChecksBase ChecksMessage ChecksRequest ChecksResponse Alike AlikeViews.
Open Scope nat_scope.
Open Scope list_scope.
Unset Strict Implicit.
Local Open Scope string_scope.
Local Open Scope list_scope.

(** ** Going through a check *)

Ltac same_one := lazymatch goal with
  | |- same_arg _ (CVal _) _ => apply same_value
  | |- same_arg _ (CHeader _ _) _ => apply same_header; first [reflexivity|assumption]
  | |- same_arg _ (CHeaders _ _) _ => apply same_headers; assumption
  | |- same_arg _ CError _ => apply same_error
  | |- same_arg _ (CResponse _) _ => apply same_response
  end.
Ltac same_ctx := unfold header_arg, harg, rarg, rname, qname, two_directives; lazymatch goal with
  | |- same_context _ [] _ => apply Forall2_nil
  | |- same_context _ (_ :: _) _ => apply Forall2_cons; [split; [reflexivity|cbn [snd]; same_one]|fold same_context; same_ctx]
  | |- Forall2 _ [] _ => apply Forall2_nil
  | |- Forall2 _ (_ :: _) _ => apply Forall2_cons; [split; [reflexivity|cbn [snd]; same_one]|same_ctx]
  end.
Ltac one extra := lazymatch goal with
  | |- sim _ _ _ (ret _) _ => apply alike_ret
  | |- sim _ _ _ (pure _) _ => apply alike_pure
  | |- sim _ _ _ (raise _) _ => apply sim_raise
  | |- sim _ _ _ (ask _) _ => apply alike_ask
  | |- sim _ _ _ (some_of _) _ => apply alike_some
  | |- sim _ _ _ (result_of _) _ => apply alike_result
  | |- sim _ _ _ (field _ _) _ => apply alike_field
  | |- sim _ _ _ (dict _) _ => apply alike_dict
  | |- sim _ _ _ (dict_has _ _) _ => apply alike_dict_has
  | |- sim _ _ _ (dict_get _ _ _) _ => apply alike_dict_get
  | |- sim _ _ _ (say _ _ _) _ => apply alike_say; [assumption|same_ctx]
  | |- sim _ _ _ (complain _ _ _) _ => apply sim_complain; same_ctx
  | |- sim _ _ _ (silence _ _) _ => apply alike_silence; assumption
  | |- sim _ _ _ (value _ _) _ => apply alike_value; assumption
  | |- sim _ _ _ (present _ _) _ => apply alike_present; assumption
  | |- sim _ _ _ (absent _ _) _ => apply alike_absent; assumption
  | |- sim _ _ _ (okayM _ _) _ => apply alike_okay; assumption
  | |- sim _ _ _ (truth _ _) _ => apply alike_truth; assumption
  | |- sim _ _ _ (attr_of _ _ _) _ => apply alike_attr; assumption
  | |- sim _ _ _ (items _ _) _ => apply alike_items; assumption
  | |- sim _ _ _ (has_item _ _ _) _ => apply alike_has_item; assumption
  | |- sim _ _ _ (is_equal _ _ _) _ => apply alike_equal; assumption
  | |- sim _ _ _ (is_unequal _ _ _) _ => apply alike_unequal; assumption
  | |- sim _ _ _ (ChecksBase.compare _ _ _ _) _ => apply alike_compare; assumption
  | |- sim _ _ _ (directive_of _ _ _) _ => apply alike_directive; assumption
  | |- sim _ _ _ (without_params _) _ => apply alike_without_params; assumption
  | |- sim _ _ _ (preference_of _ _) _ => apply alike_preference; assumption
  | |- sim _ _ _ (parse_text _ _ _ _ _) _ => apply alike_parse_text; [assumption|same_ctx]
  | |- sim _ _ _ (when _ _) _ => apply alike_when
  | |- sim _ _ _ (andM _ _) _ => apply alike_and
  | |- sim _ _ _ (orM _ _) _ => apply alike_or
  | |- sim _ _ _ (notM _) _ => apply alike_not
  | |- sim _ _ _ (ifM _ _ _) _ => apply sim_if
  | |- sim _ _ _ (bind _ _) _ => apply alike_bind; [|intro]
  | |- sim _ _ _ (for_each _ _) _ => apply alike_each; intro
  | |- sim _ _ _ (mapM _ _) _ => apply alike_map; intro
  | |- sim _ _ _ (anyM _ _) _ => apply alike_any; intro
  | |- sim _ _ _ (allM _ _) _ => apply alike_all; intro
  | |- sim _ _ _ (match ?x with _ => _ end) _ => destruct x
  end || extra.
Ltac go extra := repeat one extra.
Ltac none := fail.
Ltac follow H := apply Forall2_cons; [exact H|].

Lemma scalar_field_name v a b : same_name a b -> scalar_eq v (VObj (s "FieldName") [VStr a]) = scalar_eq v (VObj (s "FieldName") [VStr b]).
Proof.
  intro N. unfold scalar_eq. change (str_like (VObj (s "FieldName") [VStr a])) with (Some (CI a)). change (str_like (VObj (s "FieldName") [VStr b])) with (Some (CI b)).
  destruct (str_like v) as [[x|x]|]; [| |reflexivity]; unfold py_eq, ci_eq; now rewrite N.
Qed.
Lemma veq_field_name a b : same_name a b -> forall v, veq v (VObj (s "FieldName") [VStr a]) = veq v (VObj (s "FieldName") [VStr b]).
Proof.
  intro N. fix IH 1. intro v.
  assert (P : forall x, peel (VObj (s "FieldName") [VStr x]) = VObj (s "FieldName") [VStr x]) by reflexivity.
  assert (I : forall x, items_of (VObj (s "FieldName") [VStr x]) = None) by reflexivity.
  destruct v; cbn [veq]; rewrite ?P, ?I; try apply (scalar_field_name _ N); try reflexivity.
  destruct (is_tuple_class _).
  - destruct (is_transparent _); [|reflexivity]. destruct args as [|x l]; [reflexivity|]. apply IH.
  - destruct (str_eqb _ _); [reflexivity|]. apply (scalar_field_name _ N).
Qed.

Section Checks.
Variable E : env.
Variable f : who -> place -> place.
Hypothesis http : parses_http (e_read E).
(** Whether a name is well-formed does not depend on its case. *)
Hypothesis cases : forall a b, same_name a b -> (e_read E field_name a = None <-> e_read E field_name b = None).
Notation alike := (sim E f eq).

(** ** Derived properties *)

Lemma alike_between lo hi v : alike (code_between lo hi v) (code_between lo hi v).
Proof. unfold code_between. go none. Qed.
Section Derived.
Variables j j' : subject.
Hypothesis J : matched_subject f j j'.
Lemma V : m_version (j_msg j) = m_version (j_msg j').
Proof. exact (ma_version (mj_msg J)). Qed.
Lemma B : m_body (j_msg j) = m_body (j_msg j').
Proof. exact (ma_body (mj_msg J)). Qed.
Lemma D : m_decoded (j_msg j) = m_decoded (j_msg j').
Proof. exact (ma_decoded (mj_msg J)). Qed.
Lemma U : m_unicode (j_msg j) = m_unicode (j_msg j').
Proof. exact (ma_unicode (mj_msg J)). Qed.
Lemma St : j_status j = j_status j'.
Proof. exact (mj_status J). Qed.
Lemma alike_decode_all l v : alike (decode_all j l v) (decode_all j' l v).
Proof. revert v. induction l as [|c l IH]; intro v; cbn [decode_all]; go ltac:(apply IH). Qed.
Lemma alike_decoded : alike (decoded_body j) (decoded_body j').
Proof. unfold decoded_body. rewrite <- D, <- B. go ltac:(apply alike_decode_all). Qed.
Lemma alike_charset : alike (guessed_charset j) (guessed_charset j').
Proof. unfold guessed_charset. go ltac:(apply alike_decoded). Qed.
Lemma alike_unicode : alike (unicode_body j) (unicode_body j').
Proof. unfold unicode_body. rewrite <- U. go ltac:(first [apply alike_decoded|apply alike_charset]). Qed.
Lemma alike_full : alike (content_is_full j) (content_is_full j').
Proof.
  unfold content_is_full. rewrite <- St, <- B. destruct (j_status j); [|apply alike_ret]. destruct (_ || _); [apply alike_ret|]. apply sim_if; [go none|go none|].
  destruct (mj_request J) as [|q q' Q]; [go none|]. rewrite (mq_method Q). go none.
Qed.
Lemma alike_type g : alike (type_is j g) (type_is j' g).
Proof. unfold type_is. go none. Qed.
Ltac derived := lazymatch goal with
  | |- sim _ _ _ (decoded_body _) _ => apply alike_decoded
  | |- sim _ _ _ (guessed_charset _) _ => apply alike_charset
  | |- sim _ _ _ (unicode_body _) _ => apply alike_unicode
  | |- sim _ _ _ (content_is_full _) _ => apply alike_full
  | |- sim _ _ _ (type_is _ _) _ => apply alike_type
  end.
Lemma alike_json : alike (json_data j) (json_data j').
Proof. unfold json_data. cbv zeta. go ltac:(idtac; derived). Qed.
Lemma alike_xml : alike (xml_data j) (xml_data j').
Proof. unfold xml_data. go ltac:(idtac; derived). Qed.
Lemma alike_multipart : alike (multipart_data j) (multipart_data j').
Proof.
  unfold multipart_data. apply sim_if; [go ltac:(idtac; derived)| |go none]. eapply sim_bind; [apply (sim_view_refl E J)|]. intros v v' [F W].
  apply alike_bind; [apply alike_decoded|]. intro b. destruct F as [|[p e] [p' e'] l l' [G X] F]; [apply sim_raise|]. cbn [snd] in X. rewrite <- X. destruct b; go none.
Qed.
Lemma alike_urlencoded : alike (url_encoded_data j) (url_encoded_data j').
Proof. unfold url_encoded_data. go ltac:(idtac; derived). Qed.
Ltac payload := lazymatch goal with
  | |- sim _ _ _ (json_data _) _ => apply alike_json
  | |- sim _ _ _ (xml_data _) _ => apply alike_xml
  | |- sim _ _ _ (multipart_data _) _ => apply alike_multipart
  | |- sim _ _ _ (url_encoded_data _) _ => apply alike_urlencoded
  | _ => derived
  end.
Lemma alike_displayable : alike (displayable_body j) (displayable_body j').
Proof. unfold displayable_body. cbv zeta. rewrite <- B. go ltac:(idtac; payload). Qed.
Lemma alike_transformed : alike (transformed_by_proxy j) (transformed_by_proxy j').
Proof. unfold transformed_by_proxy. rewrite <- St. go none. Qed.

(** ** Checks of any message *)

Variable tls : option bool.
Lemma alike_field_name a b c c' : same_name a b -> same_context f c c' -> sim E f (fun _ _ => True) (parse_text j field_name a 1293 c) (parse_text j' field_name b 1293 c').
Proof.
  intros N C. unfold parse_text.
  assert (L : latin1 a = latin1 b).
  { clear - N. unfold same_name, lower in N. unfold latin1. revert b N. induction a as [|x a IH]; intros [|y b] H; try discriminate H; [reflexivity|]. cbn [map] in H.
    injection H as H1 H2. cbn [forallb]. rewrite (IH _ H2). f_equal. unfold lower1 in H1. destruct (is_upper x) eqn:X, (is_upper y) eqn:Y; unfold is_upper in *; lia. }
  eapply sim_bind with (R := fun r r' : option (val * list vcomplaint) => match r, r' with Some (_, []), Some (_, []) => True | None, None => True | _, _ => False end).
  - split; [apply rearranged_nil|]. rewrite <- L. destruct (latin1 a); [|exact Logic.I]. pose proof (cases N) as K.
    destruct (e_read E field_name a) as [[v cs]|] eqn:Ra, (e_read E field_name b) as [[v' cs']|] eqn:Rb.
    + assert (S : silent field_name = true) by reflexivity. rewrite (silent_reads http S Ra), (silent_reads http S Rb). exact Logic.I.
    + destruct K as [_ K]. discriminate (K eq_refl).
    + destruct K as [K _]. discriminate (K eq_refl).
    + exact Logic.I.
  - intros [[v [|c1 cs]]|] [[v' [|c2 cs']]|] H; try contradiction.
    + cbn [for_each]. apply alike_bind; [apply alike_ret|]. intro. now apply sim_ret.
    + apply alike_bind; [|intro; now apply sim_ret]. apply alike_say; [exact J|]. constructor; [split; [reflexivity|constructor]|exact C].
Qed.
Lemma alike_each_header : alike (check_each_header j) (check_each_header j').
Proof.
  unfold check_each_header. apply alike_bind.
  - eapply alike_loop; [exact (same_names J)|]. intros a b N. eapply sim_bind; [apply alike_field_name; [exact N|]|].
    + unfold header_arg. rewrite (mj_who J). same_ctx.
    + intros _ _ _. eapply sim_bind; [apply (sim_view E J N)|]. intros _ _ _. rewrite (flag_same N). apply alike_when; [go none|]. apply alike_say; [exact J|].
      unfold header_arg. rewrite (mj_who J). same_ctx.
  - intro. assert (K : rearranged same_name (filter is_x_prefixed (header_names j)) (filter is_x_prefixed (header_names j'))).
    { apply rearranged_filter; [|exact (same_names J)]. intros a b N. unfold is_x_prefixed, ci_startswith. now rewrite (header_of_same N), N. }
    pose proof (rearranged_length K) as L. destruct (filter is_x_prefixed (header_names j)), (filter is_x_prefixed (header_names j')); try discriminate L; [apply alike_ret|].
    apply alike_say; [exact J|]. rewrite (mj_who J). same_ctx.
Qed.
Lemma alike_payload : alike (check_payload j) (check_payload j').
Proof. unfold check_payload. go ltac:(idtac; payload). Qed.
Lemma alike_trailer_chunked : alike (check_trailer_chunked j) (check_trailer_chunked j').
Proof. unfold check_trailer_chunked. rewrite <- V. go none. Qed.
Lemma alike_trailers : alike (check_trailers j) (check_trailers j').
Proof.
  unfold check_trailers. eapply alike_loop; [exact (ma_trailers (mj_msg J))|]. intros [i e] [i' e'] [G N]. cbn [fst snd] in *. apply alike_when.
  - apply alike_not. unfold has_item. apply alike_bind; [go none|]. intro l. apply sim_ret. induction l as [|v l IH]; cbn [existsb]; [reflexivity|]. rewrite IH. f_equal.
    now apply (veq_field_name N).
  - apply alike_say; [exact J|]. constructor; [|constructor]. split; [reflexivity|]. cbn [snd].
    rewrite <- (mj_who J), <- G. constructor.
Qed.
Lemma alike_te_and_cl : alike (check_te_and_cl j) (check_te_and_cl j').
Proof. unfold check_te_and_cl. go none. Qed.
Lemma header_arg_same a b : same_name a b -> same_context f [header_arg j a] [header_arg j' b].
Proof. intro N. unfold header_arg. rewrite (mj_who J). same_ctx. Qed.
Lemma alike_connection : alike (check_connection j) (check_connection j').
Proof. unfold check_connection. apply alike_bind; [go none|]. intro l. apply alike_each. intro x. apply alike_when; [go none|]. apply alike_say; [exact J|]. now apply header_arg_same. Qed.
Lemma alike_media_type : alike (check_media_type j) (check_media_type j').
Proof. unfold check_media_type. go none. Qed.
Lemma alike_json_charset : alike (check_json_charset j) (check_json_charset j').
Proof. unfold check_json_charset. apply alike_when; [go none|]. apply alike_say; [exact J|]. now apply header_arg_same. Qed.
Lemma alike_future_date : alike (check_future_date j) (check_future_date j').
Proof. unfold check_future_date. rewrite <- (mj_who J). go none. Qed.
Lemma alike_warnings : alike (check_warnings j) (check_warnings j').
Proof. unfold check_warnings. go ltac:(apply alike_between). Qed.
Lemma alike_pragma : alike (check_pragma j) (check_pragma j').
Proof. unfold check_pragma. go none. Qed.
Lemma alike_upgrade_tokens : alike (check_upgrade_tokens j tls) (check_upgrade_tokens j' tls).
Proof. unfold check_upgrade_tokens. go none. Qed.
Lemma alike_upgrade_option : alike (check_upgrade_option j) (check_upgrade_option j').
Proof. unfold check_upgrade_option. go none. Qed.
Lemma alike_check_transformed : alike (check_transformed j) (check_transformed j').
Proof. unfold check_transformed. go ltac:(apply alike_transformed). Qed.
Lemma alike_http2_headers : alike (check_http2_headers j) (check_http2_headers j').
Proof.
  unfold check_http2_headers. rewrite <- V. destruct (version_in _ _); [|go none]. eapply alike_loop; [exact (same_names J)|]. intros a b N. rewrite !(among_same N).
  destruct (among b _); [apply alike_say; [exact J|now apply header_arg_same]|]. go none.
Qed.
Lemma alike_message : Forall2 (fun m m' => alike m m') (message_checks j tls) (message_checks j' tls).
Proof.
  unfold message_checks, is_early. rewrite <- St. apply Forall2_app.
  - follow alike_each_header. follow alike_payload. follow alike_trailer_chunked. follow alike_trailers. follow alike_te_and_cl. follow alike_connection.
    follow alike_media_type. follow alike_json_charset. follow alike_future_date. follow alike_warnings. follow alike_pragma. follow alike_upgrade_tokens. constructor.
  - destruct (match j_status j with Some st => (st =? 103)%Z | None => false end); [constructor|].
    follow alike_upgrade_option. follow alike_check_transformed. follow alike_http2_headers. constructor.
Qed.
End Derived.
End Checks.
