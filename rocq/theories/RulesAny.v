(** Any message is checked by the rules for messages. *)
From Coq Require Import ZifyBool ZifyNat ZifyN String.
From Verif Require Import Base Earley Grammar Syntax Actions Nested P_Types Text Structure Known Tables Header HeaderProofs P_Header P_Views P_Util Values Notices
  ChecksBase ChecksLogic ChecksViews ChecksFacts ChecksSays ChecksMessage ChecksRequest ChecksResponse HeaderValue P_Bodies RulesLogic Rules RulesBase RulesMessage RulesPayload.
Open Scope nat_scope.
Open Scope list_scope.
Unset Strict Implicit.
Local Open Scope string_scope.
Local Open Scope list_scope.

Section Any.
Variable E : env.
Variable W : event -> Prop.
Hypothesis http : parses_http (e_read E).
Variable j : subject.
Variable scheme : option str.
Notation m := (j_msg j).
Notation w := (j_who j).
Notation follows := (follows E W).

Lemma does_transformed : does E W (transformed_by_proxy j) (due (rules_by_proxy E j)) (fun b => b = true <-> transformed E j).
Proof.
  assert (K : j_status j <> Some 103%Z -> j_status j <> Some 203%Z ->
    does E W (ifM (has_item j "Warning" (warn "214")) (say j 1189 [] ;;; ret true) (ret false)) (due (rules_by_proxy E j)) (fun b => b = true <-> transformed E j)).
  { intros N N'. eapply does_to.
    - eapply does_ifM with (D := nothing) (R := fun b => b = true <-> transformed E j); [eapply tests_has_item; [exact http|reflexivity]| |].
      + intro T. eapply does_then with (D' := nothing); [apply does_say|apply does_ret]. split; [intros _|reflexivity]. right. split; auto.
      + intro T. apply does_ret. split; [discriminate|]. intros [S|[_ [_ S]]]; [destruct (N' S)|destruct (T S)].
    - open_table. unfold by_status, by_warning. split.
      + intros [[]|[[T [->|[]]]|[_ []]]]. right. left. exists []. auto.
      + intros [[ctx [-> [-> S]]]|[[ctx [-> [-> [_ [_ S]]]]]|[]]]; [destruct (N' S)|]. right. left. split; [exact S|now left]. }
  unfold transformed_by_proxy. destruct (j_status j) as [st|] eqn:S; [|apply K; discriminate].
  destruct (st =? 103)%Z eqn:A; [apply Z.eqb_eq in A; subst|destruct (st =? 203)%Z eqn:B; [apply Z.eqb_eq in B; subst|]].
  - eapply does_to; [apply does_ret|]; unfold transformed, by_status, by_warning; [rewrite S; split; [discriminate|]; intros [Q|[Q _]]; congruence|].
    open_table. unfold by_status, by_warning. rewrite S. split; [intros []|]. intro. split_up; congruence.
  - eapply does_to; [eapply does_then with (D' := nothing); [apply does_say|apply does_ret]|]; unfold transformed, by_status, by_warning; [rewrite S; tauto|].
    open_table. unfold by_status, by_warning. rewrite S. split; [intros [->|[]]; left; exists []; auto|]. intro. split_up; [subst; now left|congruence].
  - apply K; intro Q; injection Q as ->; discriminate.
Qed.

(** Notices about content codings, and about who transformed the message, may
    also be reported on the side. *)
Hypothesis side : forall e, due (rules_codings E j) e -> W e.
Lemma transformed_follows : follows (check_transformed j) (rules_transformed E j).
Proof.
  eapply does_to.
  - unfold check_transformed. eapply does_when_too; [exact does_transformed|]. intro T. eapply does_then; walk.
  - intro e. unfold rules_transformed. rewrite due_app. cbn [due]. unfold due_by, plain, about. cbn [r_who r_id r_due]. unfold directs. split.
    + intros [H|[T [[N ->]|[N ->]]]]; [now left|right; left|right; right; left]; exists []; auto.
    + intros [H|[[ctx [-> [-> [T N]]]]|[[ctx [-> [-> [T N]]]]|[]]]]; [now left|right; split; [exact T|]; left; auto|right; split; [exact T|]; right; auto].
Qed.
Lemma message_all : Forall2 follows (message_checks j (scheme_tls scheme)) (message_rules E j scheme (j_status j)).
Proof.
  unfold message_checks, message_rules. apply Forall2_app.
  - repeat apply Forall2_cons; [apply each_header|apply payload|apply trailer_chunked|apply trailers|apply te_and_cl|apply connection|apply media_types|apply json_charset
      |apply future_date|apply warnings|apply pragma|apply upgrade_tokens|apply Forall2_nil]; assumption.
  - assert (Q : is_early j = match j_status j with Some 103%Z => true | _ => false end).
    { unfold is_early. destruct (j_status j) as [st|]; [|reflexivity]. destruct (st =? 103)%Z eqn:A; [apply Z.eqb_eq in A; now subst|].
      destruct st as [|p|p]; try reflexivity. do 7 (destruct p as [p|p|]; try reflexivity). discriminate A. }
    rewrite Q. destruct (match j_status j with Some 103%Z => true | _ => false end); [apply Forall2_nil|].
    repeat apply Forall2_cons; [apply upgrade_option|exact transformed_follows|apply http2_headers|apply Forall2_nil]; assumption.
Qed.
Theorem message_follows : follows (check_message j (scheme_tls scheme)) (List.concat (message_rules E j scheme (j_status j))).
Proof. unfold check_message. apply follows_seq. exact message_all. Qed.
End Any.
