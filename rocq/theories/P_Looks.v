(** C71: looking at an exchange that has been checked adds no notices. *)
From Coq Require Import ZifyBool ZifyNat ZifyN String.
From Verif Require Import Base Earley Grammar Syntax Actions Nested P_Types Text Structure Known Tables Header HeaderProofs P_Header P_Views Values Notices Blackboard
  ChecksBase ChecksLogic ChecksViews ChecksFacts ChecksMessage ChecksRequest ChecksResponse ChecksSays ChecksTop ChecksExchange ChecksExample P_Exchange
  Rules RulesOfResponse RulesLogic RulesBase RulesPayload P_Rules Reports.
Open Scope nat_scope.
Open Scope list_scope.
Unset Strict Implicit.
Local Open Scope string_scope.
Local Open Scope list_scope.

(** What reports and users compute of a message: its body as displayed, its
    body decoded, as text and as JSON, its charset, or a header. *)
Inductive looked_up (E : env) (j : subject) (e : event) : Prop :=
| at_displayable : In e (fst (displayable_body j E)) -> looked_up E j e
| at_decoded : In e (fst (decoded_body j E)) -> looked_up E j e
| at_unicode : In e (fst (unicode_body j E)) -> looked_up E j e
| at_charset : In e (fst (guessed_charset j E)) -> looked_up E j e
| at_json : In e (fst (json_data j E)) -> looked_up E j e
| at_header name : In e (fst (ChecksBase.view j name E)) -> looked_up E j e.

Section Looks.
Variable E : env.
Hypothesis http : parses_http (e_read E).
Variable x : exchange.
Variable w : who.
Variable j : subject.
Hypothesis J : subject_at x w = Some j.

Lemma is_message : has_message x (j_who j) (j_msg j) /\ j_who j = w.
Proof.
  revert J. unfold subject_at, has_message. destruct w as [|i].
  - destruct (x_request x) as [q|]; [|discriminate]. cbn [option_map]. intro K. injection K as <-. cbn [j_who of_request j_msg]. split; [exists q; auto|reflexivity].
  - destruct (nth_error (x_responses x) i) as [p|] eqn:P; [|discriminate]. cbn [option_map]. intro K. injection K as <-. cbn [j_who of_response j_msg]. split; [exists p; auto|reflexivity].
Qed.
Definition told (e : event) : Prop := match e with Said _ id _ => on_header E x e \/ In id rule_ids | Silenced _ _ => False end.
Lemma hears_told t : In t all_tables -> hears E told (j_who j) (j_msg j) t.
Proof.
  intro I. split.
  - intros name c n C K. left. exists (j_who j), (j_msg j), name, (parse_view (e_read E) c (m_entries (j_msg j)) name), n. split; [apply is_message|]. split; [apply view_is_iff; eauto|]. auto.
  - intros id ctx [keys [K _]]. right. right. right. apply in_map_iff. exists (id, keys). split; [reflexivity|]. apply in_concat. eauto.
Qed.
Lemma payload_required e : due (rules_payload E j) e -> required E x e.
Proof.
  revert J. unfold subject_at. destruct w as [|i].
  - destruct (x_request x) as [q|] eqn:Q; [|discriminate]. cbn [option_map]. intro K. injection K as <-. intro D. apply (by_request (x := x) Q).
    unfold request_rules, message_rules. cbn [List.concat app]. rewrite !due_app. right. left. exact D.
  - destruct (nth_error (x_responses x) i) as [p|] eqn:P; [|discriminate]. cbn [option_map]. intro K. injection K as <-. intro D. apply (by_response (x := x) P).
    unfold response_rules, message_rules. cbn [List.concat app]. rewrite !due_app. right. left. exact D.
Qed.
Lemma codings_required e : due (rules_codings E j) e -> required E x e.
Proof. intro H. apply payload_required. unfold rules_payload. rewrite !due_app. auto. Qed.
Lemma json_required e : due (rules_json E j) e -> required E x e.
Proof. intro H. apply payload_required. unfold rules_payload. rewrite !due_app. auto. Qed.
Notation W := (required E x).

Lemma displayable_required : returns E W (displayable_body j) (fun _ => True).
Proof.
  unfold displayable_body.
  eapply returns_bind; [eapply tests_truth; exact http|]. intros te _. eapply returns_bind; [eapply tests_truth; exact http|]. intros ce _.
  eapply returns_bind; [apply gets_charset; [exact http|exact codings_required]|]. intros cs _.
  eapply returns_bind; [eapply does_side; [apply json_follows; [exact http|exact codings_required]|exact json_required]|]. intros json _. cbv zeta.
  destruct json; try (eapply returns_bind; [apply does_result|]; intros r _; apply does_ret; exact Logic.I);
    (eapply returns_bind; [apply gets_unicode; [exact http|exact codings_required]|]; intros u _; destruct (okay_value u);
      [destruct u; try apply does_raise; apply does_ret; exact Logic.I|];
      eapply returns_bind; [apply gets_decoded; [exact http|exact codings_required]|]; intros b _; eapply returns_bind; [apply does_ask|]; intros rep _; destruct (okay_value b);
      [destruct b; try apply does_raise; apply does_ret; exact Logic.I|];
      destruct (m_body (j_msg j)); try apply does_raise; apply does_ret; exact Logic.I).
Qed.

Hypothesis F : finished E x.
(** What is due or about a header has been reported. *)
Definition reported_before (e : event) : Prop := exists w id ctx, e = Said w id ctx /\ said E x w id ctx.
Lemma told_said {A} (c : M A) R : returns E W c R -> emits E told c -> forall e, In e (fst (c E)) -> reported_before e.
Proof.
  intros [S _] T e I. unfold emits in T. rewrite Forall_forall in T. specialize (T e I). specialize (S e I). destruct e as [w' id ctx|w' ids]; [|destruct T]. exists w', id, ctx. split; [reflexivity|].
  apply C67_complete; [exact http|exact F|]. destruct S as [[keys K]|[S|[]]]; [|now left]. destruct T as [T|T]; [now right|]. exfalso.
  pose proof (proj1 (forallb_forall _ _) apart _ K) as N. cbn [fst] in N. apply negb_true_iff in N. rewrite <- not_true_iff_false in N. apply N. apply existsb_exists. exists id. split; [exact T|apply N.eqb_refl].
Qed.
Lemma hears_payload t : inclb t t_check_payload = true -> hears E told (j_who j) (j_msg j) t.
Proof. intro S. eapply hears_incl; [|exact S]. apply hears_told. unfold all_tables. apply in_or_app. left. unfold request_tables. apply in_or_app. left. right. now left. Qed.
Lemma looked_up_before e : looked_up E j e -> reported_before e.
Proof.
  destruct 1 as [I|I|I|I|I|name I].
  - exact (told_said displayable_required (displayable_body_says (@hears_payload t_displayable_body eq_refl)) I).
  - exact (told_said (gets_decoded http codings_required) (decoded_body_says (@hears_payload t_decoded_body eq_refl)) I).
  - exact (told_said (gets_unicode http codings_required) (unicode_body_says (@hears_payload t_unicode_body eq_refl)) I).
  - exact (told_said (gets_charset http codings_required) (guessed_charset_says (@hears_payload t_guessed_charset eq_refl)) I).
  - refine (told_said (does_side (json_follows http codings_required) json_required) (json_data_says (@hears_payload t_json_data eq_refl)) I).
  - unfold ChecksBase.view in I. destruct (class_of name) as [c|] eqn:C; [|destruct I]. destruct (has_bad _); [destruct I|]. cbn [fst] in I. apply in_map_iff in I. destruct I as (n & <- & I).
    assert (H : on_header E x (lift (j_who j) n)).
    { exists (j_who j), (j_msg j), name, (parse_view (e_read E) c (m_entries (j_msg j)) name), n. split; [apply is_message|]. split; [apply view_is_iff; eauto|]. auto. }
    unfold lift in *. eexists _, _, _. split; [reflexivity|]. apply C67_complete; [exact http|exact F|]. now right.
Qed.
End Looks.

(** C71.  Whatever is looked up in a message of an exchange after checking has
    finished, all the notices that come up are already there. *)
Theorem C71_looking : forall E x w j e, parses_http (e_read E) -> finished E x -> subject_at x w = Some j -> looked_up E j e ->
  exists w' id ctx, e = Said w' id ctx /\ said E x w' id ctx.
Proof. intros E x w j e http F J L. exact (looked_up_before http J F L). Qed.
Print Assumptions C71_looking.

(** So the lists of notices stay as they were: repeating complaints that were
    made on the same object changes none of them. *)
Theorem C71_unchanged : forall (Ctx : Type) (same_ctx : Ctx -> Ctx -> bool) catalogue request_of responses_of (ops again : list (@op Ctx)) o,
  (forall c, same_ctx c c = true) ->
  (forall x, In x again -> exists o' c, x = Complain o' c /\ In (Complain o' c) ops) ->
  complaints (run same_ctx catalogue request_of responses_of (ops ++ again)) o = complaints (run same_ctx catalogue request_of responses_of ops) o.
Proof.
  intros Ctx same_ctx catalogue request_of responses_of ops again o R A. revert A. induction again as [|x again IH] using rev_ind; intro A; [now rewrite app_nil_r|].
  rewrite app_assoc, run_snoc. rewrite <- IH by (intros y I; apply A; apply in_or_app; now left). destruct (A x) as (o' & c & -> & I); [apply in_or_app; right; now left|].
  cbn [step]. unfold Blackboard.complain. destruct (catalogue (fst c)) eqn:K; [|reflexivity]. set (h := run same_ctx catalogue request_of responses_of (ops ++ again)).
  assert (X : existsb (fun old => same same_ctx old c) (b_complaints (h o')) = true); [|now rewrite X].
  assert (S : forall c', same same_ctx c' c' = true) by (intros [n c']; unfold same; now rewrite N.eqb_refl, R).
  assert (Sd : In c (Blackboard.said catalogue (ops ++ again) o')).
  { unfold Blackboard.said. apply in_flat_map. exists (Complain o' c). split; [apply in_or_app; now left|]. rewrite (proj2 (obj_eqb_eq o' o') eq_refl), K. now left. }
  destruct (firsts_covers S (run_complaints same_ctx catalogue request_of responses_of (ops ++ again) o') Sd) as (d & Id & Sd'). apply existsb_exists. exists d. auto.
Qed.
Print Assumptions C71_unchanged.

(** A body that is said to be gzipped and is not: looking at it complains
    (notice 1037), and so did checking. *)
Definition gzipped_texts : list (symbol * string * val) := [(Content_Encoding, "gzip", VList [VObj (s "ContentCoding") [VStr (s "gzip")]])].
Definition gzipped_response : response := Response (Message (Some (s "HTTP/1.1")) (headers_of [("Content-Encoding", "gzip")]) (VBytes (s "abc")) None None) 200 (Some (s "OK")).
Definition gzipped_exchange : exchange := Exchange None [gzipped_response].
Definition gzipped_env : env := env_with gzipped_texts.
Example C71_example : parses_http (e_read gzipped_env) /\ finished gzipped_env gzipped_exchange /\
  exists j ctx, subject_at gzipped_exchange (Resp 0) = Some j /\ looked_up gzipped_env j (Said (Resp 0) 1037 ctx) /\ said gzipped_env gzipped_exchange (Resp 0) 1037 ctx.
Proof.
  assert (P : parses_http (e_read gzipped_env)) by (apply (@env_parses 600); repeat apply Forall_cons; try apply Forall_nil; vm_compute; reflexivity).
  assert (F : finished gzipped_env gzipped_exchange) by (vm_compute; reflexivity).
  split; [exact P|]. split; [exact F|]. eexists. eexists. split; [reflexivity|].
  match goal with |- ?A /\ _ => assert (L : A) by (apply at_displayable; vm_compute; left; reflexivity) end.
  split; [exact L|]. destruct (@C71_looking _ _ (Resp 0) _ _ P F eq_refl L) as (w & id & ctx & H & S). injection H as <- <- <-. exact S.
Qed.
