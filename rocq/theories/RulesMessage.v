(** The checks common to requests and responses follow their rules. *)
From Coq Require Import ZifyBool ZifyNat ZifyN String.
From Verif Require Import Base Earley Grammar Syntax Actions Nested P_Types Text Structure Known Tables Header HeaderProofs P_Header P_Views P_Util Values Notices
  ChecksBase ChecksLogic ChecksViews ChecksFacts ChecksSays ChecksMessage ChecksRequest ChecksResponse HeaderValue P_Bodies RulesLogic Rules RulesBase.
Open Scope nat_scope.
Open Scope list_scope.
Unset Strict Implicit.
Local Open Scope string_scope.
Local Open Scope list_scope.

Section Message.
Variable E : env.
Variable W : event -> Prop.
Hypothesis http : parses_http (e_read E).
Variable j : subject.
Variable scheme : option str.
Notation follows := (follows E W).

Lemma te_and_cl : follows (check_te_and_cl j) (rules_te_and_cl j).
Proof. eapply does_to; [unfold check_te_and_cl; walk|]. table. Qed.
Lemma trailer_chunked : follows (check_trailer_chunked j) (rules_trailer_chunked E j).
Proof. eapply does_to; [unfold check_trailer_chunked; walk|]. table. Qed.
Lemma connection : follows (check_connection j) (rules_connection E j).
Proof. eapply does_to; [unfold check_connection; walk|]. table. Qed.
Lemma media_types : follows (check_media_type j) (rules_media_type E j).
Proof.
  unfold check_media_type. eapply does_under; [test| |].
  - intro T. eapply does_any; [gets|intros i V]. eapply does_to; [walk|]. table.
  - open_table. intro. table_one.
Qed.
Lemma json_charset : follows (check_json_charset j) (rules_json_charset E j).
Proof. eapply does_to; [unfold check_json_charset; walk|]. table. Qed.
Lemma future_date : follows (check_future_date j) (rules_future_date E j).
Proof. unfold check_future_date. eapply does_let; [apply does_ask|]. eapply does_to; [walk|]. table. Qed.
Lemma pragma : follows (check_pragma j) (rules_pragma E j).
Proof. eapply does_to; [unfold check_pragma; walk|]. table. Qed.
Lemma upgrade_tokens : follows (check_upgrade_tokens j (scheme_tls scheme)) (rules_upgrade_tokens E j scheme).
Proof. eapply does_to; [unfold check_upgrade_tokens; walk|]. table. Qed.
Lemma upgrade_option : follows (check_upgrade_option j) (rules_upgrade_option E j).
Proof. eapply does_to; [unfold check_upgrade_option; walk|]. table. Qed.
Lemma http2_headers : follows (check_http2_headers j) (rules_http2_headers j).
Proof. eapply does_to; [unfold check_http2_headers; walk|]. table. Qed.
Lemma each_header : follows (check_each_header j) (rules_each_header E j).
Proof.
  eapply does_to; [unfold check_each_header; eapply does_then|].
  - eapply does_each. intros name I. eapply does_after; [apply does_parse; [exact http|reflexivity]|]. eapply does_after; [apply does_view; exact http|]. walk.
  - instantiate (1 := fun e => exists l, l <> [] /\ e = Said (j_who j) 1277 [(s "headers", CHeaders (j_who j) l)] /\
      picked (fun name => starts name (s "X-") /\ forall i, ~ known_as i name) (header_names j) l).
    assert (P : forall l, l = filter is_x_prefixed (header_names j) <-> picked (fun name => starts name (s "X-") /\ forall i, ~ known_as i name) (header_names j) l).
    { intro l. apply picked_iff. intro name. unfold is_x_prefixed. apply and_iff; [apply starts_iff|]. rewrite <- unknown_iff. destruct (header_of name); split; congruence. }
    destruct (filter is_x_prefixed (header_names j)) as [|x l].
    + eapply does_to; [apply does_ret; exact Logic.I|]. intro e. split; [intros []|]. intros [l [N [_ Q]]]. apply P in Q. destruct (N Q).
    + eapply does_to; [apply does_say|]. intro e. split; [intros ->; exists (x :: l); split; [discriminate|]; split; [reflexivity|]; now apply P|].
      intros [l' [_ [-> Q]]]. apply P in Q. now subst.
  - table.
Qed.
Lemma nth_number {A} (l : list A) : forall k i x, In (i, x) (number k l) <-> exists n, i = k + n /\ nth_error l n = Some x.
Proof.
  induction l as [|y l IH]; intros k i x; cbn [number]; [split; [intros []|intros [[|n] [_ H]]; discriminate H]|]. split.
  - intros [H|H]; [injection H as <- <-; exists 0; split; [lia|reflexivity]|]. apply IH in H. destruct H as [n [-> H]]. exists (Datatypes.S n). split; [lia|exact H].
  - intros [[|n] [-> H]]; [cbn in H; injection H as ->; left; f_equal; lia|]. right. apply IH. exists n. split; [lia|exact H].
Qed.
Lemma trailers : follows (check_trailers j) (rules_trailers E j).
Proof.
  eapply does_to; [unfold check_trailers; walk|]. open_table. split.
  - intros [[i x] [I [N ->]]]. apply nth_number in I. destruct I as [n [-> I]]. cbn [fst snd] in *. dig.
  - intro. split_up. subst. eexists (_, _). split; [apply nth_number; eauto|]. split; [eassumption|reflexivity].
Qed.
Lemma tests_code lo hi v : tests E W (code_between lo hi v) (code_in lo hi v).
Proof. unfold code_between, code_in. eapply tests_get; [apply does_some|apply some_unique|]. intros n _. apply does_ret. lia. Qed.
Lemma warnings : follows (check_warnings j) (rules_warnings E j).
Proof. eapply does_to; [unfold check_warnings; walk|]; [apply tests_code|exact T|]. table. Qed.
End Message.
