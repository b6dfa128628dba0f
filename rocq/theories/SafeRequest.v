(** Which exceptions the checks of a request can raise. *)
From Coq Require Import ZifyBool ZifyNat ZifyN String.
From Verif Require Import Base Earley Grammar Syntax Actions Reading Nested NestedTypes Types P_Types Text Structure Known Tables Header HeaderProofs P_Header P_Views Values
  ViewFacts ChecksBase ChecksLogic ChecksViews ChecksFacts ChecksSafe ChecksMessage ChecksRequest ChecksResponse SafeMessage.
Open Scope nat_scope.
Open Scope list_scope.
Unset Strict Implicit.
Local Open Scope string_scope.
Local Open Scope list_scope.

Section Request.
Variable E : env.
Variable allowed : exn -> Prop.
Hypothesis http : parses_http (e_read E).
Variable known : msg -> Prop.
Hypothesis link_raises : forall m, known m -> crashed (v_value (got_view (e_read E) (m_entries m) (s "Link"))) -> allowed FromLink.
Hypothesis proper_known : forall m, known m -> proper m.
Hypothesis library : library_raises E -> allowed FromLibrary.
Notation safe := (safe E allowed).
Notation calm := (calm E allowed).
Ltac by_message l := eapply l; eassumption.

Lemma safe_parse_text j x text fail extra : safe (parse_text j x text fail extra) (fun v => (exists u, v = VUnavailable u) \/ exists cs, e_read E x text = Some (v, cs)).
Proof.
  eapply safe_bind; [apply safe_ask|]. intros r ->. destruct (latin1 text).
  - destruct (e_read E x text) as [[v cs]|] eqn:R.
    + eapply safe_bind; [apply calm_each; intros; exact I|]. intros. unfold ChecksSafe.safe. cbn. eauto.
    + eapply safe_bind; [apply calm_say|]. intros. unfold ChecksSafe.safe. cbn. eauto.
  - eapply safe_bind; [apply calm_say|]. intros. unfold ChecksSafe.safe. cbn. eauto.
Qed.
Lemma unpack_tuple x y : safe (some_of (unpack2 (VTuple [x; y]))) (fun p => p = (x, y)).
Proof. reflexivity. Qed.
Lemma unpack_obj x y : safe (some_of (unpack2 (VObj (s "Parametrized") [x; y]))) (fun p => p = (x, y)).
Proof. reflexivity. Qed.
Lemma result_ok {A} (r : result A) : (r = Raises -> library_raises E) -> calm (result_of r).
Proof. intro H. destruct r; [exact I|exact (library (H eq_refl))]. Qed.
Lemma has_directive_of j key : known (j_msg j) -> calm (v <- directive_of j "Cache-Control" key ;; ret (truthy_val v)).
Proof. intro Kj. eapply safe_bind; [by_message directive_ok|]. intros. apply calm_ret. Qed.
(** Items of [HTTPolice-Silence]. *)
Lemma silence_ids_ok keep l : Forall (fun v => fits (Tuple [Whole; P_Types.Truth or Nothing]) v /\ okay_value v = true) l -> calm (silence_ids keep l).
Proof.
  intro F. unfold silence_ids. eapply safe_bind; [|intros; apply calm_ret]. apply safe_map with (P := fun _ => True). intros v V. rewrite Forall_forall in F.
  destruct (F v V) as [G _]. apply fits_tuple2 in G. destruct G as [x [y [-> [[z [-> _]] _]]]]. eapply safe_bind; [apply unpack_tuple|]. intros p ->. exact I.
Qed.

Variable q : request.
Hypothesis Kj : known (j_msg (of_request q)).
Notation gv := (gv E (of_request q)).

(** The forms of a request target. *)
Definition form_shape : shape := Tuple [OneOf [Word "origin-form"; Word "absolute-form"; Word "asterisk-form"; Word "authority-form"]; Text].
Lemma target_fits method w v cs : e_read E (target_symbol method) w = Some (v, cs) -> fits form_shape v.
Proof.
  unfold target_symbol. destruct (str_eqb _ _); [|destruct (str_eqb _ _)]; intro R.
  - refine (read_fits http _ R). vm_compute. reflexivity.
  - refine (read_fits http _ R). vm_compute. reflexivity.
  - refine (read_fits http _ R). vm_compute. reflexivity.
Qed.
Lemma target_form_ok : calm (target_form q).
Proof.
  unfold target_form. eapply safe_bind; [apply safe_parse_text|]. intros v [[u ->]|[cs R]]; [exact I|]. apply target_fits in R. apply fits_tuple2 in R. destruct R as [x [y [-> [X _]]]].
  assert (T : exists t, x = VStr t). { apply one_of_in in X. destruct X as [sh [Is Fs]]. repeat (destruct Is as [<-|Is]; [cbn [fits] in Fs; eauto|]). destruct Is. }
  destruct T as [t ->]. destruct (okay_value _); [|exact I]. eapply safe_bind; [apply unpack_tuple|]. intros p ->. exact I.
Qed.
Lemma effective_uri_ok : calm (effective_uri q).
Proof.
  unfold effective_uri. eapply safe_bind; [exact target_form_ok|]. intros form _. destruct (form_is form _); [exact I|]. destruct (q_scheme q) as [[|c l]|]; try exact I.
  eapply safe_bind with (P := fun _ => True).
  - destruct (form_is form _); [exact I|]. eapply safe_bind; [leaf|]. intros v ->. destruct (okay_value (gv "Host")) eqn:O; [|exact I].
    destruct (@fit_one E http (of_request q) "Host" _ eq_refl eq_refl O) as [t ->]. exact I.
  - intros [a|] _; [|exact I]. destruct (form_is form _); [exact I|]. destruct (form_is form _); exact I.
Qed.
Lemma query_ok : calm (query_params q).
Proof.
  unfold query_params. eapply safe_bind; [exact effective_uri_ok|]. intros [u|] _; [|exact I]. eapply safe_bind; [apply safe_ask|]. intros url ->.
  eapply safe_bind; [apply result_ok, lr_url|]. intros p _. eapply safe_bind; [apply safe_ask|]. intros qs ->. apply result_ok, lr_qs.
Qed.
Lemma has_body_ok : calm (has_body q).
Proof. unfold has_body. go. Qed.

Lemma silence_own_ok : calm (silence_own q).
Proof.
  unfold silence_own. eapply safe_bind; [leaf|]. intros l [F _]. eapply safe_bind; [exact (silence_ids_ok _ F)|]. intros. apply calm_silence.
Qed.
Lemma request_line_ok : calm (check_request_line q).
Proof. unfold check_request_line. eapply safe_bind; [leaf|]. intros _ _. eapply safe_bind; [exact target_form_ok|]. intros. apply calm_ret. Qed.
Lemma uppercase_ok : calm (check_uppercase q). Proof. unfold check_uppercase. go. Qed.
Lemma untyped_body_ok : calm (check_untyped_body q). Proof. unfold check_untyped_body. go. Qed.
Lemma length_needed_ok : calm (check_length_needed q). Proof. unfold check_length_needed. go. Qed.
Lemma length_useless_ok : calm (check_length_useless q). Proof. unfold check_length_useless. go. Qed.
Lemma te_chunked_ok : calm (check_te_chunked q). Proof. unfold check_te_chunked. go. Qed.
Lemma te_http2_ok : calm (check_te_http2 q). Proof. unfold check_te_http2. go. Qed.
Lemma te_connection_ok : calm (check_te_connection q). Proof. unfold check_te_connection. go. Qed.
Lemma host_missing_ok : calm (check_host_missing q). Proof. unfold check_host_missing. go. Qed.
(** A header that may not be in the trailer part is among the header entries. *)
Lemma present_first j key : is_bad_for_trailer (s key) = true -> is_present (got_view (e_read E) (m_entries (j_msg j)) (s key)) = true ->
  exists e, hd_error (header_entries (m_entries (j_msg j))) = Some e.
Proof.
  intros B. unfold is_present, got_view. destruct (class_of_total (s key)) as [c ->]. unfold parse_view. rewrite pre_parse_eq.
  set (us := filter (kept (s key)) (enumerate (m_entries (j_msg j)) (s key))).
  assert (N : header_entries (m_entries (j_msg j)) = [] -> us = []).
  { intro H. unfold us, enumerate. rewrite H. cbn [number filter map app]. induction (filter _ (number 0 _)) as [|x l IH]; [reflexivity|]. cbn [map filter]. unfold kept at 1. cbn [fst]. rewrite B. exact IH. }
  destruct (header_entries (m_entries (j_msg j))) as [|e l]; [|intros _; exists e; reflexivity]. rewrite (N eq_refl).
  destruct c as [| | |[]]; cbn; discriminate.
Qed.
Lemma host_first_ok : calm (check_host_first q).
Proof.
  unfold check_host_first. eapply safe_when; [|intros; apply calm_say]. eapply safe_and with (Q := fun _ => True); [leaf|]. intro T. apply eq_sym in T.
  destruct (present_first (key := "Host") ltac:(vm_compute; reflexivity) T) as [e H]. cbn [of_request j_msg] in H. rewrite H. exact I.
Qed.
Lemma request_headers_ok : calm (check_request_headers q).
Proof. unfold check_request_headers. go. exact has_body_ok. Qed.

Lemma unexpected_body_ok : calm (check_unexpected_body q). Proof. unfold check_unexpected_body. go. Qed.
Lemma options_body_ok : calm (check_options_body q). Proof. unfold check_options_body. go. Qed.
Lemma expect_ok : calm (check_expect q).
Proof. unfold check_expect. go. exact has_body_ok. Qed.
Lemma max_forwards_ok : calm (check_max_forwards q). Proof. unfold check_max_forwards. go. Qed.
Lemma referer_ok : calm (check_referer q).
Proof.
  unfold check_referer. eapply safe_when; [cond|]. intros _. eapply safe_bind; [leaf|]. intros v _. eapply safe_bind; [apply safe_ask|]. intros url ->.
  eapply safe_bind; [apply result_ok, lr_url|]. intros. go.
Qed.
Lemma user_agent_ok : calm (check_user_agent q).
Proof.
  unfold check_user_agent. eapply safe_if; [leaf|intros; apply calm_say|]. intros _. eapply safe_when; [leaf|]. intro O. apply eq_sym in O.
  pose proof (@fit_one E http (of_request q) "User-Agent" _ eq_refl eq_refl O) as F. destruct F as [l [G [_ F]]].
  eapply safe_bind with (P := fun l' => l' = l).
  { eapply safe_bind; [leaf|]. intros v ->. rewrite G. reflexivity. }
  intros l' ->. assert (K : Forall (fun v => exists x y, v = VObj (s "Versioned") [x; y]) (filter is_versioned l)).
  { apply Forall_forall. intros v V. apply filter_In in V. destruct V as [V W]. rewrite Forall_forall in F. destruct (F v V) as [X|[[t ->]|[]]]; [|discriminate W].
    apply fits_make2 in X. destruct X as [x [y [-> _]]]. eauto. }
  destruct (filter is_versioned l) as [|p ps]; [exact I|]. eapply safe_when; [|intros; apply calm_say]. apply calm_all. intros v V. rewrite Forall_forall in K. destruct (K v V) as [x [y ->]].
  eapply safe_bind; [apply f_name|]. intros. apply calm_ret.
Qed.
Lemma accept_encoding_ok : calm (check_accept_encoding q).
Proof.
  unfold check_accept_encoding. eapply safe_bind; [leaf|]. intros l [F _]. apply calm_each. intros v V. rewrite Forall_forall in F. destruct (F v V) as [X _].
  apply fits_make2 in X. destruct X as [x [y [-> _]]]. eapply safe_bind; [apply f_item|]. intros i ->. eapply safe_when; [|intros; apply calm_say].
  eapply safe_and; [leaf|]. intros _. eapply safe_bind; [apply f_param|]. intros. apply calm_ret.
Qed.
Lemma star_not key : gv key = VStr (s "*") -> safe (is_unequal (of_request q) key (VStr (s "*"))) (fun b => b = false).
Proof. intro G. eapply safe_impl; [|leaf]. intros v ->. rewrite G. reflexivity. Qed.
Lemma if_match_ok : calm (check_if_match q).
Proof.
  unfold check_if_match. eapply safe_when with (P := fun _ => True); [|intros; apply calm_say].
  pose proof (@fit E http (of_request q) "If-Match" _ eq_refl) as F. destruct F as [[l [G _]]|[G|[]]].
  - eapply safe_calm, safe_and with (Q := fun _ => True); [leaf|]. intros _. eapply safe_bind; [eapply safe_star; [eassumption|eassumption|eassumption|known_shape|known_shape|known_shape]|]. intros l' [B|F].
    + unfold ChecksSafe.gv in *. congruence.
    + apply calm_any. intros v V. rewrite Forall_forall in F. destruct (F v V) as [X _]. apply fits_make2 in X. destruct X as [x [y [-> _]]]. eapply safe_bind; [apply f_weak|]. intros. apply calm_ret.
  - eapply safe_calm, safe_and with (Q := fun _ => True); [exact (star_not G)|]. discriminate.
Qed.
Lemma head_preconditions_ok : calm (check_head_preconditions q). Proof. unfold check_head_preconditions. go. Qed.
Lemma preconditions_ok : calm (check_preconditions q). Proof. unfold check_preconditions. go. Qed.
Lemma range_ok : calm (check_range q). Proof. unfold check_range. go. Qed.
Lemma if_range_ok : calm (check_if_range q). Proof. unfold check_if_range. go. Qed.
Lemma if_range_weak_ok : calm (check_if_range_weak q).
Proof.
  unfold check_if_range_weak. eapply safe_when; [|intros; apply calm_say]. eapply safe_and with (P := fun b => b = true -> is_tag (gv "If-Range") = true).
  { eapply safe_bind; [leaf|]. intros v ->. unfold ChecksSafe.safe. cbn. auto. }
  intro T. specialize (T eq_refl). eapply safe_bind; [|intros; apply calm_ret]. eapply safe_bind; [leaf|]. intros v ->.
  assert (O : okay_value (gv "If-Range") = true) by (destruct (gv "If-Range"); try discriminate T; reflexivity).
  destruct (@fit_one E http (of_request q) "If-Range" _ eq_refl eq_refl O) as [F|[[F|[F|[]]]|[]]].
  - apply fits_make2 in F. destruct F as [x [y [-> _]]]. exact I.
  - exfalso. destruct F as [l [F _]]. rewrite F in T. discriminate T.
  - exfalso. destruct F as [u F]. rewrite F in T. discriminate T.
Qed.
Lemma cache_directives_ok : calm (check_cache_directives q).
Proof.
  unfold check_cache_directives. eapply safe_bind; [leaf|]. intros l [F _]. apply calm_each. intros v V. rewrite Forall_forall in F. destruct (F v V) as [X _].
  apply fits_make2 in X. destruct X as [x [y [-> _]]]. eapply safe_bind; [apply f_item|]. intros i ->. eapply safe_bind with (P := fun _ => True); [go|]. intros _ _.
  eapply safe_when; [|intros; apply calm_say]. eapply safe_and; [leaf|]. intros _. eapply safe_bind; [apply f_param|]. intros. apply calm_ret.
Qed.
Lemma has_directive_ok key : calm (has_directive q key).
Proof. exact (has_directive_of key Kj). Qed.
Lemma no_cache_pragma_ok : calm (check_no_cache_pragma q).
Proof. unfold check_no_cache_pragma. eapply safe_when; [|intros; apply calm_say]. eapply safe_and; [exact (has_directive_ok _)|]. intros _. cond. Qed.
Lemma request_warnings_ok : calm (check_request_warnings q).
Proof.
  unfold check_request_warnings. eapply safe_bind; [leaf|]. intros l [F [l0 [G ->]]]. apply calm_each. intros w W. rewrite Forall_forall in F. destruct (F w W) as [K O].
  apply filter_In in W. destruct W as [W _]. destruct (warning_items http G W) as [[y ->]|[x [r [z [-> X]]]]]; [discriminate O|].
  cbn in K. destruct K as [l [Q K]]. injection Q as <-. destruct r as [|a [|b [|c [|d r]]]]; try (destruct K as [_ K]; cbn in K; tauto).
  eapply safe_bind; [apply f_code|]. intros v ->. eapply safe_when; [|intros; apply calm_say]. unfold code_between. eapply safe_bind with (P := fun _ => True); [|intros; apply calm_ret].
  cbn [number_like]. change (str_eqb (s "WarnCode") (s "WarnCode")) with true. cbv iota. rewrite X. exact I.
Qed.
Lemma uncacheable_method_ok : calm (check_uncacheable_method q).
Proof.
  unfold check_uncacheable_method. destruct (says_no _); [|exact I]. eapply safe_bind; [leaf|]. intros l [F _]. apply calm_each. intros v V. rewrite Forall_forall in F. destruct (F v V) as [X _].
  apply fits_make2 in X. destruct X as [x [y [-> _]]]. eapply safe_bind; [apply f_item|]. intros i ->. go.
Qed.
Lemma conflicting_ok l : calm (conflicting q l).
Proof.
  unfold conflicting. apply calm_each. intros d _. eapply safe_when; [|intros; apply calm_say]. eapply safe_and; [exact (has_directive_ok _)|]. intros _. exact (has_directive_ok _).
Qed.
Lemma directive_pairs_ok : calm (check_directive_pairs q).
Proof. apply conflicting_ok. Qed.
Lemma authorization_ok : calm (check_authorization q).
Proof.
  unfold check_authorization. apply calm_each. intros name N.
  assert (F : okay_value (gv name) = true -> exists x y, gv name = VObj (s "Parametrized") [x; y]).
  { intro O. destruct N as [<-|[<-|[]]].
    - pose proof (@fit_one E http (of_request q) "Authorization" _ eq_refl eq_refl O) as F. apply fits_make2 in F. destruct F as [x [y [F _]]]. eauto.
    - pose proof (@fit_one E http (of_request q) "Proxy-Authorization" _ eq_refl eq_refl O) as F. apply fits_make2 in F. destruct F as [x [y [F _]]]. eauto. }
  clear N. eapply safe_when; [leaf|]. intro O. apply eq_sym in O. destruct (F O) as [x [y G]]. eapply safe_bind; [leaf|]. intros v ->. rewrite G.
  eapply safe_bind; [apply unpack_obj|]. intros p ->. cbn [fst snd]. destruct (veq x _).
  - unfold check_basic_auth. go.
  - destruct (veq x _); [unfold check_bearer_auth; go|go].
Qed.
Lemma patch_ok : calm (check_patch q).
Proof.
  unfold check_patch. eapply safe_when; [eapply safe_and; [leaf|intros _; leaf]|]. intros [_ O]. apply eq_sym in O. eapply safe_bind; [eapply content_type_item; eassumption|]. intros. go.
Qed.
Lemma h2c_ok : calm (check_h2c q).
Proof.
  unfold check_h2c. eapply safe_bind; [leaf|]. intros l [F _]. apply calm_each. intros v V. rewrite Forall_forall in F. destruct (F v V) as [X _].
  apply fits_make2 in X. destruct X as [x [y [-> _]]]. eapply safe_bind; [apply f_name|]. intros i ->. go.
Qed.
Lemma settings_option_ok : calm (check_settings_option q). Proof. unfold check_settings_option. go. Qed.
Lemma settings_ok : calm (check_settings q).
Proof.
  unfold check_settings. eapply safe_when; [leaf|]. intro O. apply eq_sym in O. eapply safe_bind; [leaf|]. intros v ->.
  destruct (@fit_one E http (of_request q) "HTTP2-Settings" _ eq_refl eq_refl O) as [t [-> _]]. go.
Qed.
Lemma token_in_uri_ok : calm (check_token_in_uri q).
Proof.
  unfold check_token_in_uri. eapply safe_when; [eapply safe_bind; [exact query_ok|intros; apply calm_ret]|]. intros _. eapply safe_bind; [leaf|]. intros _ _.
  eapply safe_bind with (P := fun _ => True); [go|]. intros _ _. eapply safe_when; [eapply safe_not; exact (has_directive_ok _)|intros; apply calm_say].
Qed.
Lemma token_in_body_ok : calm (check_token_in_body q).
Proof.
  unfold check_token_in_body. eapply safe_bind; [by_message url_encoded_ok|]. intros [keys|] _; [|exact I]. eapply safe_when; [leaf|]. intros _.
  eapply safe_bind; [by_message displayable_ok|]. intros. apply calm_say.
Qed.
(** Items of the Accept headers, normalized. *)
Lemma normalize_ok item param x y : fits (parametrized_by item param) (VObj (s "Parametrized") [x; y]) ->
  (is_str x = true \/ exists i p, x = VObj (s "Parametrized") [i; p] /\ is_str i = true) ->
  (forall c l, y = VObj c l -> exists k v, fits (params k v) y) ->
  safe (normalize (VObj (s "Parametrized") [x; y])) (fun r => is_str (fst r) = true).
Proof.
  intros _ X Y. unfold normalize. eapply safe_bind; [apply unpack_obj|]. intros p ->. cbv iota beta.
  eapply safe_bind with (P := fun i => is_str i = true).
  { destruct X as [X|[i [p [-> X]]]]; [|exact X]. assert (N : forall i p, x <> VObj (s "Parametrized") [i; p]) by (intros i p ->; destruct i; discriminate X).
    destruct x as [| | | | | | | | |c [|i [|p [ | ? l]]]| |]; try exact X. destruct (str_eqb c (s "Parametrized")) eqn:C; [|exact X]. apply str_eqb_eq in C. subst c. now destruct (N i p). }
  intros i Xi. eapply safe_bind with (P := fun _ => True); [|intros; exact Xi].
  destruct y as [| | | | | | | | |c l| |]; try exact I. destruct (str_eqb c (s "MultiDict")); [|exact I]. destruct (Y c l eq_refl) as [k [v F]]. eapply safe_calm. eapply safe_get. exact F.
Qed.
Lemma calm_and a b : calm a -> calm b -> calm (a &? b).
Proof. intros A B. eapply safe_calm, safe_and; [exact A|]. intros _. exact B. Qed.
Lemma subsumption_ok l : Forall (fun p => is_str (fst (fst p)) = true) l -> calm (first_subsumption l).
Proof.
  induction 1 as [|[x y] l H F IH]; [exact I|]. cbn [first_subsumption]. eapply safe_if with (P := fun _ => True); [|intros; apply calm_ret|intros; exact IH]. unfold subsumes. cbn [fst snd] in *.
  apply calm_and; [|apply calm_and; [exact I|apply calm_and; exact I]].
  eapply safe_calm, safe_or with (Q := fun _ => True); [leaf|]. intros _. unfold str_endswith. unfold is_str in H. destruct (str_like (fst x)) as [[]|]; [exact I|exact I|discriminate H].
Qed.
Lemma ordered_pairs_in {A} (P : A -> Prop) l : Forall P l -> Forall (fun p => P (fst p)) (ordered_pairs l).
Proof.
  intro F. apply Forall_forall. intros p I. unfold ordered_pairs in I. apply in_flat_map in I. destruct I as [x [Ix I]]. apply in_map_iff in I. destruct I as [y [<- _]]. cbn [fst].
  assert (N : forall n (m : list A), In x (number n m) -> In (snd x) m). { intros n m. revert n. induction m as [|z m IH]; intros n K; [destruct K|]. destruct K as [<-|K]; [now left|right; eauto]. }
  rewrite Forall_forall in F. eauto.
Qed.
Lemma subsumptions_ok : calm (check_subsumptions q).
Proof.
  unfold check_subsumptions. apply calm_each. intros name N.
  assert (G : forall l, Forall (fun v => exists x y item param, v = VObj (s "Parametrized") [x; y] /\ fits (parametrized_by item param) v /\
     (is_str x = true \/ exists i p, x = VObj (s "Parametrized") [i; p] /\ is_str i = true) /\ (forall c l, y = VObj c l -> exists k v, fits (params k v) y)) l ->
     calm (normalized <- mapM normalize l ;; r <- first_subsumption (ordered_pairs normalized) ;;
       match r with Some (w, v) => say (of_request q) 1276 [harg name; (s "wildcard", CVal w); (s "value", CVal v)] | None => ret tt end)).
  { intros l F. eapply safe_bind. { apply safe_map with (P := fun r => is_str (fst r) = true). intros v V. rewrite Forall_forall in F. destruct (F v V) as [x [y [item [param [-> [A [B C]]]]]]]. exact (normalize_ok A B C). }
    intros ns Ns. eapply safe_bind; [apply subsumption_ok, (ordered_pairs_in Ns)|]. intros [[w v]|] _; [apply calm_say|exact I]. }
  assert (K : safe (items (of_request q) name) (Forall (fun v => exists x y item param, v = VObj (s "Parametrized") [x; y] /\ fits (parametrized_by item param) v /\
     (is_str x = true \/ exists i p, x = VObj (s "Parametrized") [i; p] /\ is_str i = true) /\ (forall c l, y = VObj c l -> exists k v, fits (params k v) y)))).
  { assert (W : forall v, fits weight v -> forall c l, v = VObj c l -> exists k v0, fits (params k v0) v).
    { intros v [[t ->]|[->|[]]]; discriminate. }
    destruct N as [<-|[<-|[<-|[<-|[]]]]]; (eapply safe_impl; [|leaf]); intros l [F _]; (eapply Forall_impl; [|exact F]); intros v [X _]; assert (X' := X); apply fits_make2 in X'; destruct X' as [x [y [-> [H1 H2]]]]; exists x, y; eexists _, _; (split; [reflexivity|]); (split; [exact X|]).
    - apply fits_make2 in H1. destruct H1 as [i [p [-> [H1 _]]]]. split.
      + right. exists i, p. split; [reflexivity|]. destruct H1 as [H1|[[t [-> _]]|[]]]; [|reflexivity]. apply fits_make1 in H1. destruct H1 as [u [-> [t [-> _]]]]. reflexivity.
      + intros c l0 _. exists (P_Types.ci or Name), (Decimal or Text or Nothing). exact H2.
    - apply fits_make1 in H1. destruct H1 as [u [-> [t [-> _]]]]. split; [left; reflexivity|exact (W y H2)].
    - split; [left|exact (W y H2)]. destruct H1 as [H1|[H1|[]]]; [|cbn [fits] in H1; subst x; reflexivity]. apply fits_make1 in H1. destruct H1 as [u [-> [t [-> _]]]]. reflexivity.
    - apply fits_make1 in H1. destruct H1 as [u [-> [t [-> _]]]]. split; [left; reflexivity|exact (W y H2)]. }
  eapply safe_bind; [exact K|]. exact G.
Qed.
Lemma preferences_shape : safe (items (of_request q) "Prefer") (Forall (fun v => exists n r y, v = VObj (s "Parametrized") [VObj (s "Parametrized") [n; r]; y] /\ r <> VBad)).
Proof.
  eapply safe_impl; [|leaf]. intros l [F _]. eapply Forall_impl; [|exact F]. intros v [X _]. apply fits_make2 in X. destruct X as [x [y [-> [X _]]]]. apply fits_make2 in X.
  destruct X as [n [r [-> [_ R]]]]. exists n, r, y. split; [reflexivity|]. intros ->. revert R. clear. cbn. intros H.
  repeat match goal with H : _ \/ _ |- _ => destruct H | H : exists _, _ |- _ => destruct H | H : _ /\ _ |- _ => destruct H | H : VBad = _ |- _ => discriminate H | H : False |- _ => destruct H end.
Qed.
Lemma without_params_ok : safe (without_params (of_request q)) (Forall (fun v => exists n r, v = VObj (s "Parametrized") [n; r] /\ r <> VBad)).
Proof.
  unfold without_params. eapply safe_bind; [exact preferences_shape|]. intros l F. apply safe_map. intros v V. rewrite Forall_forall in F. destruct (F v V) as [n [r [y [-> B]]]].
  eapply safe_bind; [apply unpack_obj|]. intros p ->. unfold ChecksSafe.safe. cbn. eauto.
Qed.
Lemma preference_ok key : calm (preference_of (of_request q) key).
Proof.
  unfold preference_of. eapply safe_bind; [exact without_params_ok|]. intros l F.
  assert (K : Forall (fun v => exists n r, v = VObj (s "Parametrized") [n; r]) l) by (eapply Forall_impl; [|exact F]; intros v [n [r [-> _]]]; eauto).
  destruct (first_directive_in (s key) K) as [->|[->|[n [r [V [Q ->]]]]]]; [exact I|exact I|]. rewrite Forall_forall in F. destruct (F _ V) as [n' [r' [Q' B]]]. injection Q' as <- <-. destruct r; try exact I. now destruct B.
Qed.
Lemma duplicate_preferences_ok : calm (check_duplicate_preferences q).
Proof.
  unfold check_duplicate_preferences. eapply safe_bind; [exact preferences_shape|]. intros l F. eapply safe_bind.
  { apply safe_map with (P := fun _ => True). intros v V. rewrite Forall_forall in F. destruct (F v V) as [n [r [y [-> B]]]]. eapply safe_bind; [apply unpack_obj|]. intros p ->. cbn [fst].
    eapply safe_bind; [apply unpack_obj|]. intros. exact I. }
  intros. go.
Qed.
Lemma respond_async_ok : calm (check_respond_async q).
Proof.
  unfold check_respond_async. eapply safe_when; [|intros; apply calm_say]. eapply safe_and; [eapply safe_bind; [exact (preference_ok _)|intros; apply calm_ret]|]. intros. leaf.
Qed.
Lemma return_minimal_ok : calm (check_return_minimal q).
Proof.
  unfold check_return_minimal. eapply safe_when; [|intros; apply calm_say]. eapply safe_and; [eapply safe_bind; [exact (preference_ok _)|intros; apply calm_ret]|]. intros. leaf.
Qed.
Lemma wants_ok key x : calm (wants q key x).
Proof. unfold wants. eapply safe_bind; [exact without_params_ok|]. intros. apply calm_ret. Qed.
Lemma return_both_ok : calm (check_return_both q).
Proof. unfold check_return_both. eapply safe_when; [|intros; apply calm_say]. eapply safe_and; [exact (wants_ok _ _)|]. intros. exact (wants_ok _ _). Qed.
Lemma handling_both_ok : calm (check_handling_both q).
Proof. unfold check_handling_both. eapply safe_when; [|intros; apply calm_say]. eapply safe_and; [exact (wants_ok _ _)|]. intros. exact (wants_ok _ _). Qed.

Lemma request_ok : calm (check_request q).
Proof.
  assert (T : forall l1 l2, calm (seq l1) -> calm (seq l2) -> calm (seq (l1 ++ l2))).
  { intros l1 l2 A B. unfold seq in *. induction l1 as [|m l1 IH]; [exact B|]. cbn [app for_each] in *. unfold ChecksSafe.calm, ChecksSafe.safe, bind in *. destruct (m E) as [es [v|e]]; cbn [snd] in *; [|exact A].
    destruct (for_each l1 _ E) as [es1 r1]. cbn [snd] in *. specialize (IH A). destruct (for_each (l1 ++ l2) _ E) as [es2 r2]. exact IH. }
  unfold check_request, request_checks. apply T; [apply calm_seq; intros m [<-|[]]; exact silence_own_ok|]. apply T; [exact (message_ok http link_raises proper_known library Kj _)|].
  apply calm_seq. intros m I. repeat (destruct I as [<-|I]; [lazymatch goal with
    | |- _ (check_request_line _) => exact request_line_ok | |- _ (check_uppercase _) => exact uppercase_ok | |- _ (check_untyped_body _) => exact untyped_body_ok
    | |- _ (check_length_needed _) => exact length_needed_ok | |- _ (check_length_useless _) => exact length_useless_ok | |- _ (check_te_chunked _) => exact te_chunked_ok
    | |- _ (check_te_http2 _) => exact te_http2_ok | |- _ (check_te_connection _) => exact te_connection_ok | |- _ (check_host_missing _) => exact host_missing_ok
    | |- _ (check_host_first _) => exact host_first_ok | |- _ (check_request_headers _) => exact request_headers_ok | |- _ (check_unexpected_body _) => exact unexpected_body_ok
    | |- _ (check_options_body _) => exact options_body_ok | |- _ (check_expect _) => exact expect_ok | |- _ (check_max_forwards _) => exact max_forwards_ok
    | |- _ (check_referer _) => exact referer_ok | |- _ (check_user_agent _) => exact user_agent_ok | |- _ (check_accept_encoding _) => exact accept_encoding_ok
    | |- _ (check_if_match _) => exact if_match_ok | |- _ (check_head_preconditions _) => exact head_preconditions_ok | |- _ (check_preconditions _) => exact preconditions_ok
    | |- _ (check_range _) => exact range_ok | |- _ (check_if_range _) => exact if_range_ok | |- _ (check_if_range_weak _) => exact if_range_weak_ok
    | |- _ (check_cache_directives _) => exact cache_directives_ok | |- _ (check_no_cache_pragma _) => exact no_cache_pragma_ok | |- _ (check_request_warnings _) => exact request_warnings_ok
    | |- _ (check_uncacheable_method _) => exact uncacheable_method_ok | |- _ (check_directive_pairs _) => exact directive_pairs_ok | |- _ (check_authorization _) => exact authorization_ok
    | |- _ (check_patch _) => exact patch_ok | |- _ (check_h2c _) => exact h2c_ok | |- _ (check_settings_option _) => exact settings_option_ok | |- _ (check_settings _) => exact settings_ok
    | |- _ (check_token_in_uri _) => exact token_in_uri_ok | |- _ (check_token_in_body _) => exact token_in_body_ok | |- _ (check_subsumptions _) => exact subsumptions_ok
    | |- _ (check_duplicate_preferences _) => exact duplicate_preferences_ok | |- _ (check_respond_async _) => exact respond_async_ok | |- _ (check_return_minimal _) => exact return_minimal_ok
    | |- _ (check_return_both _) => exact return_both_ok | |- _ (check_handling_both _) => exact handling_both_ok end|]). destruct I.
Qed.
End Request.
