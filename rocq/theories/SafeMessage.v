(** Which exceptions the checks of any message can raise. *)
From Coq Require Import ZifyBool ZifyNat ZifyN String.
From Verif Require Import Base Earley Grammar Syntax Actions Reading Nested NestedTypes Types P_Types Text Structure Known Tables Header HeaderProofs P_Header P_Views Values
  ViewFacts ChecksBase ChecksLogic ChecksViews ChecksFacts ChecksSafe ChecksMessage ChecksRequest ChecksResponse.
Open Scope nat_scope.
Open Scope list_scope.
Unset Strict Implicit.
Local Open Scope string_scope.
Local Open Scope list_scope.

(** ** Checks of any message *)

(** What a body can be. *)
Definition octets_or_not (v : val) : Prop := match v with VBytes _ | VNone | VUnavailable _ => True | _ => False end.
Definition text_or_not (v : val) : Prop := match v with VStr _ | VNone | VUnavailable _ => True | _ => False end.
Definition proper (m : msg) : Prop :=
  octets_or_not (m_body m) /\ (forall v, m_decoded m = Some v -> octets_or_not v) /\ (forall v, m_unicode m = Some v -> text_or_not v).
(** A library function raises something that is not expected. *)
Inductive library_raises (E : env) : Prop :=
| lr_codec x : e_codec E x = Broke -> library_raises E
| lr_decode c x : e_decode E c x = Broke -> library_raises E
| lr_json x : e_json E x = JsonRaises -> library_raises E
| lr_dumps x : e_json E x = JsonData Raises -> library_raises E
| lr_xml x : e_xml E x = XmlRaises -> library_raises E
| lr_email x : e_email E x = Raises -> library_raises E
| lr_qs x : e_qs E x = Raises -> library_raises E
| lr_url x : e_url E x = Raises -> library_raises E
| lr_join x y : e_join E x y = Raises -> library_raises E.

Section Message.
Variable E : env.
Variable allowed : exn -> Prop.
Hypothesis http : parses_http (e_read E).
Variable known : msg -> Prop.
Hypothesis link_raises : forall m, known m -> crashed (v_value (got_view (e_read E) (m_entries m) (s "Link"))) -> allowed FromLink.
Hypothesis proper_known : forall m, known m -> proper m.
Hypothesis library : library_raises E -> allowed FromLibrary.
Variable j : subject.
Hypothesis Kj : known (j_msg j).
Notation safe := (safe E allowed).
Notation calm := (calm E allowed).
Notation gv := (gv E j).

Lemma decode_all_ok codings : forall r, octets_or_not r -> safe (decode_all j codings r) octets_or_not.
Proof.
  induction codings as [|c l IH]; intros r R; cbn [decode_all]; [exact R|]. destruct r as [|x| | | | | | | | | |]; try exact R. destruct x as [|b x]; [exact R|].
  destruct (decoder c) as [f|].
  - eapply safe_bind; [apply safe_ask|]. intros d _. destruct (d (b :: x)); [apply IH; exact I|]. eapply safe_bind; [apply calm_say|]. intros. exact I.
  - destruct (okay_value c); [eapply safe_bind; [apply calm_say|]; intros; exact I|exact I].
Qed.
Lemma decoded_ok : safe (decoded_body j) octets_or_not.
Proof.
  unfold decoded_body. destruct (m_decoded (j_msg j)) as [v|] eqn:D; [exact (proj1 (proj2 (proper_known Kj)) v D)|].
  eapply safe_bind; [leaf|]. intros v ->. pose proof (@fit E http j "Content-Encoding" _ eq_refl) as F.
  assert (V : exists l, gv "Content-Encoding" = VList l) by (destruct F as [[l [F _]]|[]]; eauto). destruct V as [l ->]. apply decode_all_ok. exact (proj1 (proper_known Kj)).
Qed.

(** Content-Type, when it is okay. *)
Lemma content_type_value : okay_value (gv "Content-Type") = true ->
  exists t p, gv "Content-Type" = VObj (s "Parametrized") [VObj (s "MediaType") [VStr t]; p] /\ fits (params P_Types.ci Text) p.
Proof.
  intro O. pose proof (@fit_one E http j "Content-Type" _ eq_refl eq_refl O) as F. apply fits_make2 in F. destruct F as [x [y [-> [X Y]]]].
  apply fits_make1 in X. destruct X as [u [-> [t [-> _]]]]. eauto.
Qed.
Lemma content_type_item : okay_value (gv "Content-Type") = true -> calm (attr_of j "Content-Type" "item").
Proof. intro O. eapply safe_bind; [leaf|]. intros v ->. destruct (content_type_value O) as [t [p [-> _]]]. exact I. Qed.
Lemma content_type_param : okay_value (gv "Content-Type") = true -> safe (attr_of j "Content-Type" "param") (fits (params P_Types.ci Text)).
Proof. intro O. eapply safe_bind; [leaf|]. intros v ->. destruct (content_type_value O) as [t [p [-> F]]]. exact F. Qed.
Lemma safe_dict p k v : fits (params k v) p -> safe (dict p) (Forall (fun kv => fits k (fst kv) /\ fits v (snd kv))).
Proof. intro F. destruct (dict_pairs F) as [d [D G]]. unfold dict, ChecksSafe.safe. rewrite D. exact G. Qed.
Lemma safe_get p k v key default : fits (params k v) p -> safe (dict_get p key default) (fun x => x = default \/ fits v x).
Proof.
  intro F. eapply safe_bind; [exact (safe_dict F)|]. intros d D. destruct (get_some veq d key default) as [x [-> [[-> _]|[k' [I _]]]]]; [now left|].
  right. rewrite Forall_forall in D. exact (proj2 (D _ I)).
Qed.
Lemma calm_has p k v key : fits (params k v) p -> calm (dict_has p key).
Proof. intro F. eapply safe_bind; [exact (safe_dict F)|]. intros d D. exact I. Qed.

(** The charset, given that the body is the same each time. *)
Lemma charset_ok : safe (guessed_charset j) (fun r => match r with Some c => forall x, snd (decoded_body j E) = Ok (VBytes x) -> exists t, e_decode E c x = Fine t | None => True end).
Proof.
  unfold guessed_charset. eapply safe_bind with (P := fun v => exists x, v = VStr x).
  { eapply safe_if; [leaf| |].
    - intro O. eapply safe_bind; [exact (content_type_param (eq_sym O))|]. intros p F. eapply safe_impl; [|exact (safe_get _ _ F)]. intros v [->|[t ->]]; eauto.
    - intros _. unfold ChecksSafe.safe. cbn. eauto. }
  intros v [x ->]. cbn [str_like]. eapply safe_bind; [exact (eq_refl : safe (some_of (Some x)) (fun y => y = x))|]. intros y ->.
  eapply safe_bind; [apply safe_ask|]. intros codec ->. destruct (e_codec E x) as [cs| |] eqn:C; [|exact I|exact (library (lr_codec C))].
  eapply safe_bind; [apply safe_self, decoded_ok|]. intros b [B1 B2]. destruct b as [|y| | | | | | | | | |]; try destruct B1.
  - eapply safe_bind; [apply safe_ask|]. intros dec ->. destruct (e_decode E cs y) as [t| |] eqn:D; [|exact I|exact (library (lr_decode D))].
    intros z Z. rewrite B2 in Z. injection Z as <-. eauto.
  - intros z Z. rewrite B2 in Z. discriminate Z.
  - intros z Z. rewrite B2 in Z. discriminate Z.
Qed.
Lemma unicode_ok : safe (unicode_body j) text_or_not.
Proof.
  unfold unicode_body. destruct (m_unicode (j_msg j)) as [v|] eqn:U; [exact (proj2 (proj2 (proper_known Kj)) v U)|].
  eapply safe_bind; [apply safe_self, decoded_ok|]. intros b [B1 B2]. destruct b as [|y| | | | | | | | | |]; try destruct B1; try exact I.
  eapply safe_bind; [exact charset_ok|]. intros [c|] C; [|exact I]. eapply safe_bind; [apply safe_ask|]. intros dec ->. destruct (C y B2) as [t ->]. exact I.
Qed.
Lemma full_ok : calm (content_is_full j).
Proof. unfold content_is_full. go. Qed.
Lemma type_is_ok f : safe (type_is j f) (fun b => b = true -> okay_value (gv "Content-Type") = true).
Proof.
  unfold type_is. eapply safe_impl; [|eapply safe_and; [leaf|]].
  - intros [|] H Q; [|discriminate Q]. symmetry. exact (proj1 H).
  - cbv beta. intro O. eapply safe_bind; [exact (content_type_item (eq_sym O))|]. intros. apply calm_ret.
Qed.

(** [and] of three, of which only the first matters later. *)
Lemma safe_three a b c (P Q : bool -> Prop) : safe a P -> safe b Q -> calm c -> safe (a &? b &? c) (fun x => x = true -> P true /\ Q true).
Proof.
  intros A B C. eapply safe_impl; [|eapply safe_and; [exact A|]].
  2: { intros _. eapply safe_and; [exact B|]. intros _. exact C. }
  intros [|] H; [|discriminate]. intros _. destruct H as [H1 [H2 _]]. auto.
Qed.
Lemma okay_decoded : safe (b <- decoded_body j ;; ret (okay_value b)) (fun r => r = true -> forall b, snd (decoded_body j E) = Ok b -> exists x, b = VBytes x).
Proof.
  eapply safe_bind; [apply safe_self, decoded_ok|]. intros b [B1 B2] O b' B'. rewrite B2 in B'. injection B' as <-. destruct b; try destruct B1; try discriminate O. eauto.
Qed.
Lemma okay_unicode : safe (u <- unicode_body j ;; ret (okay_value u)) (fun r => r = true -> forall b, snd (unicode_body j E) = Ok b -> exists x, b = VStr x).
Proof.
  eapply safe_bind; [apply safe_self, unicode_ok|]. intros b [B1 B2] O b' B'. rewrite B2 in B'. injection B' as <-. destruct b; try destruct B1; try discriminate O. eauto.
Qed.
Lemma json_ok : safe (json_data j) (fun r => r = JValue Raises -> library_raises E).
Proof.
  unfold json_data. eapply safe_if; [exact (safe_three (type_is_ok is_json) okay_unicode full_ok)| |].
  2: { intros _. unfold ChecksSafe.safe. cbn. discriminate. }
  intro T. destruct (T eq_refl) as [_ U]. specialize (U eq_refl). eapply safe_bind; [apply safe_self, unicode_ok|]. intros u [_ Hu]. destruct (U u Hu) as [t ->].
  eapply safe_bind; [apply safe_ask|]. intros json ->.
  assert (G : forall r : json_value, safe (cs <- guessed_charset j ;;
    (match cs with Some c => when (pure (negb (str_eqb c (s "ascii") || str_eqb c (s "utf-8")))) (say j 1281 []) | None => ret tt end) ;;; ret r) (fun x => x = r)).
  { intro r. eapply safe_bind; [exact charset_ok|]. intros cs _. eapply safe_bind with (P := fun _ => True); [|intros; reflexivity]. go. }
  destruct (e_json E t) as [|d| |] eqn:J.
  - eapply safe_impl; [|exact (G JNone)]. intros v ->. discriminate.
  - eapply safe_impl; [|exact (G (JValue d))]. intros v -> Q. injection Q as ->. exact (lr_dumps J).
  - eapply safe_bind; [apply calm_say|]. intros _ _. unfold ChecksSafe.safe. cbn. discriminate.
  - exact (library (lr_json J)).
Qed.
Lemma xml_ok : calm (xml_data j).
Proof.
  unfold xml_data. eapply safe_when; [exact (safe_three (type_is_ok is_xml) okay_decoded full_ok)|]. intro T. destruct (T eq_refl) as [_ U]. specialize (U eq_refl).
  eapply safe_bind; [apply safe_self, decoded_ok|]. intros u [_ Hu]. destruct (U u Hu) as [t ->]. eapply safe_bind; [apply safe_ask|]. intros xml ->.
  destruct (e_xml E t) eqn:X; try exact I. exact (library (lr_xml X)).
Qed.
Lemma content_type_entry : okay_value (gv "Content-Type") = true -> exists e l, v_entries (got_view (e_read E) (m_entries (j_msg j)) (s "Content-Type")) = e :: l.
Proof.
  unfold ChecksSafe.gv, got_view. change (class_of (s "Content-Type")) with (Some SingleView). cbv iota. unfold parse_view. rewrite pre_parse_eq. cbn [combine_entries]. unfold parse_single.
  set (us := filter _ _). rewrite <- map_rev. destruct (rev us) as [|u r]; cbn [map v_value v_entries]; intro O; [discriminate O|]. eauto.
Qed.
Lemma multipart_ok : calm (multipart_data j).
Proof.
  unfold multipart_data. eapply safe_if; [exact (safe_three (type_is_ok is_multipart) okay_decoded full_ok)| |intros; exact I]. intro T. destruct (T eq_refl) as [O U]. specialize (U eq_refl). specialize (O eq_refl).
  eapply safe_bind; [leaf|]. intros v [-> _]. eapply safe_bind; [apply safe_self, decoded_ok|]. intros u [_ Hu]. destruct (U u Hu) as [t ->]. destruct (content_type_entry O) as [[p e] [l ->]].
  eapply safe_bind; [apply safe_ask|]. intros f ->. set (x := s "Content-Type: " ++ _). destruct (e_email E x) as [m|] eqn:M.
  - eapply safe_bind with (P := fun _ => True); [exact I|]. intros m' _. go.
  - eapply safe_bind with (P := fun _ => True); [exact (library (lr_email M))|]. intros. go.
Qed.
Lemma three_equal key other b c (Q : bool -> Prop) : safe b Q -> calm c -> safe (is_equal j key other &? b &? c) (fun x => x = true -> Q true).
Proof.
  intros B C. eapply safe_impl; [|refine (@safe_three _ b c _ Q _ B C); leaf]. intros x H T. exact (proj2 (H T)).
Qed.
Lemma url_encoded_ok : calm (url_encoded_data j).
Proof.
  unfold url_encoded_data. eapply safe_if; [exact (three_equal _ _ okay_decoded full_ok)| |intros; exact I]. intro T. specialize (T eq_refl eq_refl). rename T into U.
  eapply safe_bind; [apply safe_self, decoded_ok|]. intros u [_ Hu]. destruct (U u Hu) as [t ->]. destruct (find _ t).
  - go.
  - eapply safe_bind; [apply safe_ask|]. intros qs ->. destruct (e_qs E t) eqn:Q; [|exact (library (lr_qs Q))]. eapply safe_bind with (P := fun _ => True); [exact I|]. intros. exact I.
Qed.
Lemma displayable_ok : calm (displayable_body j).
Proof.
  unfold displayable_body. eapply safe_bind; [leaf|]. intros te _. eapply safe_bind; [leaf|]. intros ce _. eapply safe_bind; [exact charset_ok|]. intros cs _. cbv zeta.
  eapply safe_bind; [exact json_ok|]. intros r R.
  assert (G : forall k : list str, calm (u <- unicode_body j ;;
      if okay_value u then match u with VStr r => ret (clip r k) | _ => raise Mistake end
      else b <- decoded_body j ;; replace <- ask e_replace ;;
        if okay_value b then match b with VBytes x => ret (clip (replace x) ((if te then [s "removing Transfer-Encoding"] else []) ++ (if ce then [s "removing Content-Encoding"] else []))) | _ => raise Mistake end
        else match m_body (j_msg j) with VBytes x => ret (clip (replace x) (if te then [s "removing Transfer-Encoding"] else [])) | VNone | VUnavailable _ => ret (m_body (j_msg j), []) | _ => raise Mistake end)).
  { intro k. eapply safe_bind; [exact unicode_ok|]. intros u U. destruct u; try destruct U; cbn [okay_value]; try exact I.
    all: eapply safe_bind; [exact decoded_ok|]; intros b B; eapply safe_bind; [apply safe_ask|]; intros f _.
    all: destruct b; try destruct B; cbn [okay_value]; try exact I.
    all: pose proof (proj1 (proper_known Kj)) as Bd; destruct (m_body (j_msg j)); try destruct Bd; exact I. }
  destruct r as [| |d]; [apply G|apply G|]. destruct d as [x|].
  - eapply safe_bind with (P := fun _ => True); [exact I|]. intros. exact I.
  - eapply safe_bind with (P := fun _ => True); [exact (library (R eq_refl))|]. intros. exact I.
Qed.

(** Comparisons of times and of numbers. *)
Lemma moment_time v : fits moment v -> okay_value v = true -> exists z, time_like v = Some z.
Proof.
  intros F O. destruct F as [F|[[u F]|[]]]; [|rewrite F in O; discriminate O]. cbn in F. destruct F as [l [-> F]].
  do 6 (destruct l as [ | v l]; [destruct F|]; destruct F as [[? [-> _]] F]). destruct l; [|destruct F]. cbn. eauto.
Qed.
Lemma safe_compare test key other : (okay_value (gv key) = true -> okay_value other = true -> exists c, order (gv key) other = Some c) ->
  safe (compare test j key other) (fun b => b = true -> okay_value (gv key) = true /\ okay_value other = true).
Proof.
  intro H. eapply safe_bind; [leaf|]. intros v [-> _]. unfold is_okay. change (v_value (got_view (e_read E) (m_entries (j_msg j)) (s key))) with (gv key).
  destruct (okay_value (gv key)) eqn:A; [|unfold ChecksSafe.safe; cbn; discriminate]. destruct (okay_value other) eqn:B; cbn [andb]; [|unfold ChecksSafe.safe; cbn; discriminate].
  destruct (H eq_refl eq_refl) as [c ->]. unfold ChecksSafe.safe. cbn. auto.
Qed.
Lemma order_times a b x y : time_like a = Some x -> time_like b = Some y -> exists c, order a b = Some c.
Proof. intros A B. unfold order. destruct (number_like a), (number_like b); rewrite ?A, ?B; eauto. Qed.
Lemma order_numbers a b x y : number_like a = Some x -> number_like b = Some y -> exists c, order a b = Some c.
Proof. intros A B. unfold order. rewrite A, B. eauto. Qed.
Lemma instant_time z : time_like (instant z) = Some z.
Proof. reflexivity. Qed.
Lemma date_time : okay_value (gv "Date") = true -> exists z, time_like (gv "Date") = Some z.
Proof. intro O. exact (moment_time (@fit_one E http j "Date" _ eq_refl eq_refl O) O). Qed.

(** ** The checks *)

Lemma each_header_ok : calm (check_each_header j).
Proof. unfold check_each_header. go. Qed.
Lemma payload_ok : calm (check_payload j).
Proof.
  unfold check_payload. eapply safe_bind; [exact decoded_ok|]. intros _ _. eapply safe_bind; [exact unicode_ok|]. intros _ _. eapply safe_bind; [exact json_ok|]. intros _ _.
  eapply safe_bind; [exact xml_ok|]. intros _ _. eapply safe_bind; [exact multipart_ok|]. intros _ _. eapply safe_bind; [exact url_encoded_ok|]. intros _ _. exact I.
Qed.
Lemma trailer_chunked_ok : calm (check_trailer_chunked j).
Proof. unfold check_trailer_chunked. go. Qed.
Lemma trailers_ok : calm (check_trailers j).
Proof. unfold check_trailers. go. Qed.
Lemma te_and_cl_ok : calm (check_te_and_cl j).
Proof. unfold check_te_and_cl. go. Qed.
Lemma connection_ok : calm (check_connection j).
Proof. unfold check_connection. go. Qed.
Lemma media_type_ok : calm (check_media_type j).
Proof.
  unfold check_media_type. eapply safe_when; [leaf|]. intro O. apply eq_sym in O. eapply safe_bind; [exact (content_type_item O)|]. intros i _.
  eapply safe_bind with (P := fun _ => True); [go|]. intros _ _. eapply safe_bind; [exact (content_type_param O)|]. intros p F. eapply safe_bind; [exact (safe_dict F)|]. intros d _. go.
Qed.
Lemma json_charset_ok : calm (check_json_charset j).
Proof.
  unfold check_json_charset. eapply safe_when; [|intros; apply calm_say]. eapply safe_and; [leaf|]. intro T. apply eq_sym in T. apply andb_prop in T. destruct T as [T _]. apply andb_prop in T. destruct T as [T _].
  eapply safe_bind; [exact (content_type_param T)|]. intros p F. exact (calm_has _ F).
Qed.
Lemma future_date_ok : calm (check_future_date j).
Proof.
  unfold check_future_date. eapply safe_bind; [apply safe_ask|]. intros now ->. eapply safe_when; [|intros; apply calm_say]. apply safe_compare. intros O _.
  destruct (date_time O) as [z Z]. exact (order_times Z (instant_time _)).
Qed.
Lemma warnings_ok : calm (check_warnings j).
Proof.
  unfold check_warnings. eapply safe_bind; [leaf|]. intros l [F [l0 [G ->]]]. apply calm_each. intros w W. rewrite Forall_forall in F. destruct (F w W) as [_ O].
  apply filter_In in W. destruct W as [W _]. pose proof (@fit E http j "Warning" _ eq_refl) as Fi. rewrite G in Fi. assert (K : fits (Unread or Make "WarningValue" [P_Types.a "WarnCode"; Text; Text; Nothing or moment]) w).
  { destruct Fi as [[l [Q K]]|[]]. injection Q as <-. rewrite Forall_forall in K. exact (K w W). }
  destruct (warning_items http G W) as [[y ->]|[x [r [z [-> X]]]]]; [discriminate O|].
  destruct K as [[y K]|[K|[]]]; [discriminate K|]. cbn in K. destruct K as [l [Q K]]. injection Q as <-. destruct r as [|a [|b [|c [|d r]]]]; try (destruct K as [_ K]; cbn in K; tauto).
  eapply safe_bind; [apply f_code|]. intros v ->. eapply safe_bind with (P := fun _ => True).
  { eapply safe_when; [|intros; apply calm_say]. eapply safe_not. unfold code_between. eapply safe_bind with (P := fun _ => True); [|intros; apply calm_ret].
    cbn [number_like]. change (str_eqb (s "WarnCode") (s "WarnCode")) with true. cbv iota. rewrite X. exact I. }
  intros _ _. eapply safe_bind; [apply f_date|]. intros v ->. go.
Qed.
Lemma pragma_check_ok : calm (check_pragma j).
Proof.
  unfold check_pragma. eapply safe_bind; [leaf|]. intros l [F [l0 [G ->]]]. apply calm_each. intros w W. rewrite Forall_forall in F. destruct (F w W) as [_ O].
  apply filter_In in W. destruct W as [W _]. eapply safe_when; [apply safe_pure|]. intro N. destruct (pragma_items http G W) as [[y ->]|[[t [-> X]]|[x [y ->]]]]; [discriminate O| |].
  - exfalso. assert (T : veq (VObj (s "CaseInsensitive") [VStr t]) (VStr (s "no-cache")) = true).
    { change (str_eqb (lower t) (s "no-cache") = true). apply str_eqb_eq. now apply lower_ascii. }
    rewrite T in N. discriminate N.
  - eapply safe_bind; [apply f_item|]. intros. apply calm_say.
Qed.
Lemma upgrade_tokens_ok tls : calm (check_upgrade_tokens j tls).
Proof.
  unfold check_upgrade_tokens. eapply safe_bind; [leaf|]. intros l [F _]. apply calm_each. intros w W. rewrite Forall_forall in F. destruct (F w W) as [K _]. apply fits_make2 in K. destruct K as [x [y [-> _]]].
  eapply safe_bind; [apply f_name|]. intros v ->. go.
Qed.
Lemma upgrade_option_ok : calm (check_upgrade_option j).
Proof. unfold check_upgrade_option. go. Qed.
Lemma transformed_ok : calm (transformed_by_proxy j).
Proof. unfold transformed_by_proxy. go. Qed.
(** The argument of a directive: one of those listed, [None], or [True]. *)
Lemma first_directive_in key l : Forall (fun v => exists n r, v = VObj (s "Parametrized") [n; r]) l ->
  first_directive key l = VNone \/ first_directive key l = VBool true \/ exists n r, In (VObj (s "Parametrized") [n; r]) l /\ ci_eq (text_of n) key = true /\ first_directive key l = r.
Proof.
  induction 1 as [|v l [n [r ->]] F IH]; [now left|]. cbn [first_directive]. change (unpack2 (VObj (s "Parametrized") [n; r])) with (Some (n, r)). cbv iota.
  destruct (ci_eq (text_of n) key) eqn:Q.
  - right. destruct r; auto; right; eexists n, _; (split; [now left|split; [exact Q|reflexivity]]).
  - destruct IH as [IH|[IH|[n' [r' [I [Q' IH]]]]]]; auto. right. right. exists n', r'. split; [now right|auto].
Qed.
Lemma directive_ok key : safe (directive_of j "Cache-Control" key)
  (fun v => v = VNone \/ v = VBool true \/ exists l n, gv "Cache-Control" = VList l /\ In (VObj (s "Parametrized") [n; v]) l /\ ci_eq (text_of n) (s key) = true).
Proof.
  unfold directive_of. eapply safe_bind; [leaf|]. intros l [F [l0 [G ->]]].
  assert (K : Forall (fun v => exists n r, v = VObj (s "Parametrized") [n; r]) (filter okay_value l0)).
  { apply Forall_forall. intros v V. rewrite Forall_forall in F. destruct (F v V) as [K _]. apply fits_make2 in K. destruct K as [n [r [-> _]]]. eauto. }
  destruct (first_directive_in (s key) K) as [->|[->|[n [r [V [Q ->]]]]]]; [now left|right; now left|].
  assert (B : r <> VBad).
  { rewrite Forall_forall in F. destruct (F _ V) as [X _]. apply fits_make2 in X. destruct X as [n' [r' [Q' [_ X]]]]. injection Q' as <- <-. intros ->. revert X. clear. cbn. intros H.
    repeat match goal with H : _ \/ _ |- _ => destruct H | H : exists _, _ |- _ => destruct H | H : _ /\ _ |- _ => destruct H | H : VBad = _ |- _ => discriminate H | H : False |- _ => destruct H end. }
  apply filter_In in V. destruct V as [V _]. unfold ChecksSafe.safe. destruct r; try (cbn; right; right; eauto; fail). now destruct B.
Qed.
Lemma transformed_check_ok : calm (check_transformed j).
Proof.
  unfold check_transformed. eapply safe_when; [exact transformed_ok|]. intros _. eapply safe_bind with (P := fun _ => True); [go|]. intros _ _.
  eapply safe_when; [|intros; apply calm_say]. eapply safe_bind; [exact (directive_ok "no-transform")|]. intros. apply calm_ret.
Qed.
Lemma http2_headers_ok : calm (check_http2_headers j).
Proof. unfold check_http2_headers. go. Qed.
Lemma message_ok tls : calm (check_message j tls).
Proof.
  apply calm_seq. intros m I. unfold message_checks in I. apply in_app_or in I. destruct I as [I|I].
  - repeat (destruct I as [<-|I]; [lazymatch goal with
      | |- _ (check_each_header _) => exact each_header_ok | |- _ (check_payload _) => exact payload_ok | |- _ (check_trailer_chunked _) => exact trailer_chunked_ok
      | |- _ (check_trailers _) => exact trailers_ok | |- _ (check_te_and_cl _) => exact te_and_cl_ok | |- _ (check_connection _) => exact connection_ok
      | |- _ (check_media_type _) => exact media_type_ok | |- _ (check_json_charset _) => exact json_charset_ok | |- _ (check_future_date _) => exact future_date_ok
      | |- _ (check_warnings _) => exact warnings_ok | |- _ (check_pragma _) => exact pragma_check_ok | |- _ (check_upgrade_tokens _ _) => apply upgrade_tokens_ok end|]). destruct I.
  - destruct (is_early j); [destruct I|]. repeat (destruct I as [<-|I]; [lazymatch goal with
      | |- _ (check_upgrade_option _) => exact upgrade_option_ok | |- _ (check_transformed _) => exact transformed_check_ok | |- _ (check_http2_headers _) => exact http2_headers_ok end|]). destruct I.
Qed.
End Message.
