(** The notices reported about an exchange are those that the rules require. *)
From Coq Require Import ZifyBool ZifyNat ZifyN String.
From Verif Require Import Base Earley Grammar Syntax Actions Nested P_Types Text Structure Known Tables Header HeaderProofs P_Header P_Views P_Util Values Notices
  ChecksBase ChecksLogic ChecksViews ChecksFacts ChecksSays ChecksTop ChecksExchange ChecksExample ChecksMessage ChecksRequest ChecksResponse P_Exchange HeaderValue P_Bodies RulesLogic Rules RulesBase RulesMessage RulesPayload
  RulesAny RulesRequest RulesOfResponse RulesResponse RulesContext.
Open Scope nat_scope.
Open Scope list_scope.
Unset Strict Implicit.
Local Open Scope string_scope.
Local Open Scope list_scope.

Section Exchange.
Variable E : env.
Hypothesis http : parses_http (e_read E).
Variable x : exchange.
Notation T := (required E x).
Notation req := (x_request x).
Notation responses := (x_responses x).

Lemma early_sides n p e : p_status p = 103%Z -> due (rules_from_cache E n p ++ rules_stale E n p ++ rules_by_proxy E (of_response n p req)) e -> False.
Proof.
  intros S. rewrite !due_app. unfold rules_from_cache, rules_stale, rules_by_proxy, by_status, by_warning. cbn [due j_status of_response]. unfold due_by, plain. cbn [r_who r_id r_due].
  unfold stale_max_age, stale_expires, unwarned, stale_warning, from_warning, from_age, from_future, late. rewrite S. intro. split_up; congruence.
Qed.
Section One.
Variable n : nat.
Variable p : response.
Hypothesis at_n : nth_error responses n = Some p.
Lemma in_response t e : In t (response_rules E n p req) -> due t e -> T e.
Proof. intros I H. apply by_response with (n := n) (p := p); [exact at_n|]. apply due_concat. eauto. Qed.
Lemma in_request q t e : req = Some q -> In t (request_rules E q) -> due t e -> T e.
Proof. intros Q I H. apply by_request with (q := q); [exact Q|]. apply due_concat. eauto. Qed.
Lemma in_context q t e : req = Some q -> In t (context_rules E n p q) -> due t e -> T e.
Proof. intros Q I H. apply by_both with (n := n) (p := p) (q := q); [exact at_n|exact Q|]. apply due_concat. eauto. Qed.
Lemma in_payload e : due (rules_payload E (of_response n p req)) e -> T e.
Proof. apply in_response. unfold response_rules, message_rules. apply in_or_app. left. right. now left. Qed.
Lemma in_late t e : p_status p <> 103%Z -> In t [rules_cached E n p; rules_expired E n p; rules_served_stale E n p] -> due t e -> T e.
Proof.
  intros N I. apply in_response. unfold response_rules. apply in_or_app. right. apply in_or_app. right. destruct (p_status p =? 103)%Z eqn:Q; [apply Z.eqb_eq in Q; congruence|].
  cbn [In] in *. tauto.
Qed.
Lemma cache_required e : due (rules_from_cache E n p) e -> T e.
Proof.
  intro H. destruct (Z.eq_dec (p_status p) 103) as [S|S]; [exfalso; apply (@early_sides n p e S); rewrite !due_app; auto|].
  apply (@in_late (rules_cached E n p)); [exact S|now left|]. unfold rules_cached. rewrite due_app. now left.
Qed.
Lemma stale_required e : due (rules_stale E n p) e -> T e.
Proof.
  intro H. destruct (Z.eq_dec (p_status p) 103) as [S|S]; [exfalso; apply (@early_sides n p e S); rewrite !due_app; auto|].
  apply (@in_late (rules_served_stale E n p)); [exact S|right; right; now left|]. unfold rules_served_stale. rewrite due_app. now left.
Qed.
Lemma proxy_required e : due (rules_by_proxy E (of_response n p req)) e -> T e.
Proof.
  intro H. destruct (Z.eq_dec (p_status p) 103) as [S|S]; [exfalso; apply (@early_sides n p e S); rewrite !due_app; auto|].
  apply (@in_response (rules_transformed E (of_response n p req))); [|unfold rules_transformed; rewrite due_app; now left].
  unfold response_rules, message_rules. apply in_or_app. left. apply in_or_app. right.
  assert (Q : match Some (p_status p) with Some 103%Z => true | _ => false end = false).
  { destruct (p_status p) as [|c|c]; try reflexivity. do 7 (destruct c as [c|c|]; try reflexivity). congruence. }
  rewrite Q. right. now left.
Qed.
Lemma line_required q e : req = Some q -> due (skipn 1 (rules_request_line E q)) e -> T e.
Proof.
  intros Q H. apply (@in_request q (rules_request_line E q)); [exact Q|unfold request_rules; apply in_or_app; right; now left|].
  change (rules_request_line E q) with ([hd (plain Req 0 True) (rules_request_line E q)] ++ skipn 1 (rules_request_line E q)). rewrite due_app. now right.
Qed.
Lemma request_payload q e : req = Some q -> due (rules_payload E (of_request q)) e -> T e.
Proof. intro Q. apply (@in_request q); [exact Q|]. unfold request_rules, message_rules. apply in_or_app. left. apply in_or_app. left. right. now left. Qed.
Lemma itself_follows : follows E T (check_response_itself n p req) (List.concat (response_rules E n p req)).
Proof.
  change (follows E T (seq (response_checks n p req)) (List.concat ([] :: response_rules E n p req))). apply follows_seq. apply response_all.
  - exact http.
  - exact cache_required.
  - intros e H. apply (@in_response (rules_close_option E n p req)); [|unfold rules_close_option; rewrite due_app; now left]. unfold response_rules. apply in_or_app. right. do 2 right. now left.
  - exact proxy_required.
  - intros e H. apply in_payload. unfold rules_payload. rewrite !due_app. auto.
  - intros e H. apply in_payload. unfold rules_payload. rewrite !due_app. auto.
  - intros q Q e. now apply line_required.
  - intros q Q e H. apply (request_payload Q). unfold rules_payload. rewrite !due_app. auto.
  - intros q Q e H. apply (request_payload Q). unfold rules_payload. rewrite !due_app. auto 6.
Qed.
Lemma context_follows q : req = Some q -> follows E T (check_response_in_context n p req q) (List.concat (context_rules E n p q)).
Proof.
  intro Q. rewrite Q. change (follows E T (seq (context_checks n p (Some q) q)) (List.concat ([] :: context_rules E n p q))). apply follows_seq. apply context_all.
  - exact http.
  - intros e. now apply line_required.
  - intros e H. apply (@in_context q (rules_proxy_via E n p q)); [exact Q|unfold context_rules; apply in_or_app; left; do 6 right; now left|]. unfold rules_proxy_via. rewrite due_app. now left.
  - intros e H. apply proxy_required. now rewrite Q.
  - exact cache_required.
  - exact stale_required.
Qed.
Definition about_response (e : event) : Prop :=
  due (List.concat (response_rules E n p req)) e \/ exists q, req = Some q /\ due (List.concat (context_rules E n p q)) e.
Lemma response_reports : reports E T (check_response n p req) about_response.
Proof.
  unfold check_response. eapply does_then; [exact itself_follows|]. pose proof context_follows as C. destruct (x_request x) as [q|].
  - eapply does_to; [exact (C q eq_refl)|]. intro e. split; [eauto|]. intros [q' [Q H]]. now injection Q as <-.
  - apply does_none; [|exact Logic.I]. intros e [q [Q _]]. discriminate Q.
Qed.
End One.

(** *** All responses *)

Definition first_final (n f : nat) : Prop :=
  f < n /\ exists pf, nth_error responses f = Some pf /\ final pf /\ forall i pi, i < f -> nth_error responses i = Some pi -> ~ final pi.
Lemma first_final_unique n f f' : first_final n f -> first_final n f' -> f = f'.
Proof.
  intros [_ [pf [P [F A]]]] [_ [pf' [P' [F' A']]]]. destruct (Nat.lt_trichotomy f f') as [L|[L|L]]; [|exact L|].
  - destruct (A' f pf L P F).
  - destruct (A f' pf' L P' F').
Qed.
Lemma first_final_step n p f : nth_error responses n = Some p ->
  (first_final (S n) f <-> first_final n f \/ ((forall f', ~ first_final n f') /\ final p /\ f = n)).
Proof.
  intro P. split.
  - intros [L [pf [Q [F A]]]]. destruct (Nat.eq_dec f n) as [->|N].
    + right. rewrite P in Q. injection Q as <-. split; [|auto]. intros f' [L' [pf' [Q' [F' _]]]]. exact (A f' pf' L' Q' F').
    + left. split; [lia|]. exists pf. auto.
  - intros [[L H]|[N [F ->]]]; [split; [lia|exact H]|]. split; [lia|]. exists p. split; [exact P|]. split; [exact F|].
    (* the first one before, if there is one *)
    assert (K : forall k, k <= n -> forall i pi, i < k -> nth_error responses i = Some pi -> ~ final pi).
    { induction k as [|k IH]; [lia|]. intros Lk i pi Li Pi Fi. destruct (Nat.eq_dec i k) as [->|Ni]; [|apply (IH ltac:(lia) i pi ltac:(lia) Pi Fi)].
      apply (N k). split; [lia|]. exists pi. split; [exact Pi|]. split; [exact Fi|]. apply IH. lia. }
    exact (K n (le_n n)).
Qed.
Definition about_place (i : nat) (p : response) (e : event) : Prop :=
  about_response i p e \/ exists f, first_final i f /\ e = Said (Resp i) 1304 [(s "previous", CResponse f)].
Lemma responses_report l : forall n final, (forall i, nth_error l i = nth_error responses (n + i)) -> (forall f, final = Some f <-> first_final n f) ->
  reports E T (check_responses_from req n final l) (fun e => exists i p, n <= i /\ nth_error responses i = Some p /\ about_place i p e).
Proof.
  induction l as [|p l IH]; intros n fin A F; cbn [check_responses_from].
  - apply does_none; [|exact Logic.I]. intros e [i [p [L [P _]]]]. specialize (A (i - n)). replace (n + (i - n)) with i in A by lia. rewrite P in A. destruct (i - n); discriminate A.
  - assert (P : nth_error responses n = Some p) by (rewrite <- (Nat.add_0_r n); rewrite <- A; reflexivity).
    eapply does_to; [eapply does_then with (D := fun e => exists f, first_final n f /\ e = Said (Resp n) 1304 [(s "previous", CResponse f)])|].
    + destruct fin as [f|].
      * eapply does_to; [apply does_complain|]. intro e. split; [intros ->; exists f; split; [now apply F|reflexivity]|]. intros [f' [H ->]]. apply F in H. now injection H as <-.
      * apply does_none; [|exact Logic.I]. intros e [f [H _]]. apply F in H. discriminate H.
    + eapply does_then; [exact (response_reports P)|]. apply IH.
      * intro i. specialize (A (S i)). cbn [nth_error] in A. rewrite A. f_equal. lia.
      * intro f. rewrite (@first_final_step n p f P). destruct fin as [f0|].
        { split; [intro Q; left; now apply F|]. intros [H|[N _]]; [now apply F|]. destruct (N f0). now apply F. }
        { assert (N : forall f', ~ first_final n f') by (intros f' H; apply F in H; discriminate H). pose proof (informational_iff p) as C. unfold RulesOfResponse.final.
          destruct (informational (p_status p)); split.
          - discriminate.
          - intros [H|[_ [H _]]]; [destruct (N f H)|tauto].
          - intro Q. injection Q as <-. right. split; [exact N|]. split; [|reflexivity]. intro K. apply C in K. discriminate K.
          - intros [H|[_ [_ ->]]]; [destruct (N f H)|reflexivity]. }
    + intro e. cbv beta. split.
      * intros [H|[H|[i [pi [L [Pi H]]]]]]; [exists n, p; split; [lia|]; split; [exact P|]; right; exact H|exists n, p; split; [lia|]; split; [exact P|]; left; exact H|exists i, pi; split; [lia|]; auto].
      * intros [i [pi [L [Pi H]]]]. destruct (Nat.eq_dec i n) as [->|N]; [|right; right; exists i, pi; split; [lia|auto]]. rewrite P in Pi. injection Pi as <-. destruct H as [H|H]; auto.
Qed.

(** *** Expectations *)

Variable expected : Prop.
Definition about_continue (i : nat) (p : response) (e : event) : Prop :=
  expected /\ p_status p = 101%Z /\ (forall k pk, k <= i -> nth_error responses k = Some pk -> p_status pk <> 100%Z) /\ e = Said (Resp i) 1305 [].
Lemma continue_reports l : forall n expect, (forall i, nth_error l i = nth_error responses (n + i)) ->
  (expect = true <-> expected /\ forall k pk, k < n -> nth_error responses k = Some pk -> p_status pk <> 100%Z) ->
  reports E T (check_continue expect n l) (fun e => exists i p, n <= i /\ nth_error responses i = Some p /\ about_continue i p e).
Proof.
  induction l as [|p l IH]; intros n expect A X; cbn [check_continue].
  - apply does_none; [|exact Logic.I]. intros e [i [p [L [P _]]]]. specialize (A (i - n)). replace (n + (i - n)) with i in A by lia. rewrite P in A. destruct (i - n); discriminate A.
  - assert (P : nth_error responses n = Some p) by (rewrite <- (Nat.add_0_r n); rewrite <- A; reflexivity). cbv zeta.
    assert (X' : expect && negb (p_status p =? 100)%Z = true <-> expected /\ forall k pk, k < S n -> nth_error responses k = Some pk -> p_status pk <> 100%Z).
    { rewrite andb_true_iff, negb_true_iff, Z.eqb_neq, X. split.
      - intros [[Y H] N]. split; [exact Y|]. intros k pk L Pk. destruct (Nat.eq_dec k n) as [->|Nk]; [rewrite P in Pk; now injection Pk as <-|apply (H k pk ltac:(lia) Pk)].
      - intros [Y H]. split; [split; [exact Y|]; intros k pk L; apply H; lia|]. apply (H n p); [lia|exact P]. }
    eapply does_to; [eapply does_then with (D := about_continue n p); [|apply IH; [|exact X']]|].
    + eapply does_to; [eapply does_if; [apply and_iff; [exact X'|apply Z.eqb_eq]|intros _; apply does_complain|intros _; apply does_ret; exact Logic.I]|].
      intro e. unfold about_continue, nothing. split.
      * intros [[[[Y H] S] ->]|[_ []]]. split; [exact Y|]. split; [exact S|]. split; [intros k pk L; apply H; lia|reflexivity].
      * intros [Y [S [H ->]]]. left. split; [split; [split; [exact Y|]; intros k pk L; apply H; lia|exact S]|reflexivity].
    + intro i. specialize (A (S i)). cbn [nth_error] in A. rewrite A. f_equal. lia.
    + intro e. cbv beta. split.
      * intros [H|[i [pi [L [Pi H]]]]]; [exists n, p; split; [lia|auto]|exists i, pi; split; [lia|auto]].
      * intros [i [pi [L [Pi H]]]]. destruct (Nat.eq_dec i n) as [->|N]; [|right; exists i, pi; split; [lia|auto]]. rewrite P in Pi. injection Pi as <-. now left.
Qed.
End Exchange.

Theorem exchange_reports E x : parses_http (e_read E) -> reports E nothing (check_exchange x) (required E x).
Proof.
  intro http. apply does_merge with (W := required E x); [|auto]. set (expected := exists q, x_request x = Some q /\ equals E (q_msg q) "Expect" (VStr (s "100-continue"))).
  unfold check_exchange. eapply does_to; [eapply does_onto with (R := fun b => b = true <-> expected) (D := fun e => exists q, x_request x = Some q /\ due (List.concat (request_rules E q)) e)|].
  - unfold expected. destruct (x_request x) as [q|] eqn:Q.
    + eapply does_to; [eapply does_then with (D' := nothing); [exact (does_wider (W' := required E x) (fun e (f : nothing e) => match f with end) (@request_follows E q http))|]|].
      * eapply does_weak; [apply tests_equal; [exact http|apply readable_okay; reflexivity]|]. intros b B. cbv beta in *. rewrite B. split; [eauto|]. intros [q' [K H]]. now injection K as <-.
      * intro e. unfold nothing. split; [intros [H|[]]; eauto|]. intros [q' [K H]]. injection K as <-. now left.
    + apply does_none; [|split; [discriminate|intros [q [K _]]; discriminate K]]. intros e [q [K _]]. discriminate K.
  - intros b B. eapply does_then; [apply (responses_report http); [reflexivity|]|].
    + intro f. split; [discriminate|]. intros [L _]. lia.
    + apply (@continue_reports E x expected); [reflexivity|]. rewrite B. split; [intro Y; split; [exact Y|]; lia|tauto].
  - intro e. cbv beta. split.
    + intros [[q [Q H]]|[[i [p [_ [P [[H|[q [Q H]]]|[f [[L [pf [Pf [F A]]]] ->]]]]]]]|[i [p [_ [P [[q [Q X]] [S [A ->]]]]]]]]].
      * now apply by_request with (q := q).
      * now apply by_response with (n := i) (p := p).
      * now apply by_both with (n := i) (p := p) (q := q).
      * now apply by_final with (p := p) (pf := pf).
      * now apply by_expectation with (p := p) (q := q).
    + intros [q e' Q H|n p e' P H|n p q e' P Q H|n p f pf P L Pf F A|n p q P Q X S A].
      * left. eauto.
      * right. left. exists n, p. split; [lia|]. split; [exact P|]. left. now left.
      * right. left. exists n, p. split; [lia|]. split; [exact P|]. left. right. eauto.
      * right. left. exists n, p. split; [lia|]. split; [exact P|]. right. exists f. split; [|reflexivity]. split; [exact L|]. exists pf. auto.
      * right. right. exists n, p. split; [lia|]. split; [exact P|]. split; [exists q; auto|]. auto.
Qed.

(** ** Notices about headers *)

(** A message of the exchange. *)
Definition has_message (x : exchange) (w : who) (m : msg) : Prop :=
  match w with Req => exists q, x_request x = Some q /\ m = q_msg q | Resp n => exists p, nth_error (x_responses x) n = Some p /\ m = p_msg p end.
(** The event is a notice that is due to how a header of a message is written. *)
Definition on_header (E : env) (x : exchange) (e : event) : Prop :=
  exists w m name v n, has_message x w m /\ view_is (e_read E) (m_entries m) name v /\ In n (v_notices v) /\ e = lift w n.

(** *** Nothing else is reported *)

Definition all_tables : list table := request_tables ++
  flat_map (fun b => flat_map (fun t => [fst t; snd t]) (response_tables b ++ context_tables b)) [true; false].
Definition rule_ids : list N := 1304%N :: 1305%N :: map fst (List.concat all_tables).
Lemma apart : forallb (fun n => negb (existsb (N.eqb (fst n)) rule_ids)) header_notices = true.
Proof. vm_compute. reflexivity. Qed.
Section Heard.
Variable E : env.
Hypothesis http : parses_http (e_read E).
Variable x : exchange.
Definition accounted (e : event) : Prop := match e with Said _ id _ => on_header E x e \/ In id rule_ids | Silenced _ _ => True end.
Lemma table_accounted w m t : has_message x w m -> In t all_tables -> hears E accounted w m t.
Proof.
  intros M I. split.
  - intros name c n C J. left. exists w, m, name, (parse_view (e_read E) c (m_entries m) name), n. split; [exact M|]. split; [apply view_is_iff; eauto|]. auto.
  - intros id ctx [keys [J _]]. right. right. right. apply in_map_iff. exists (id, keys). split; [reflexivity|]. apply in_concat. eauto.
Qed.
Lemma request_accounted q : x_request x = Some q -> emits E accounted (check_request q).
Proof.
  intro Q. apply request_emits; [exact http|intros; exact Logic.I|]. apply Forall_forall. intros t I. apply table_accounted; [exists q; auto|]. unfold all_tables. apply in_or_app. now left.
Qed.
Lemma response_accounted n p : nth_error (x_responses x) n = Some p -> emits E accounted (check_response n p (x_request x)).
Proof.
  intro A. apply response_emits; [exact http|intros; exact Logic.I|]. apply Forall_forall. intros t I.
  assert (J : forall u, In u [fst t; snd t] -> In u all_tables).
  { intros u U. unfold all_tables. apply in_or_app. right. apply in_flat_map. exists (p_status p =? 103)%Z. split; [destruct (p_status p =? 103)%Z; cbn [In]; auto|]. apply in_flat_map. exists t. auto. }
  split; [|intros q Q]; (apply table_accounted; [|apply J; cbn [In]; auto]); [exists p; auto|exists q; auto].
Qed.
Lemma responses_accounted l : forall n final, (forall i, nth_error l i = nth_error (x_responses x) (n + i)) -> emits E accounted (check_responses_from (x_request x) n final l).
Proof.
  induction l as [|p l IH]; intros n final A; cbn [check_responses_from]; [apply emits_ret|]. apply emits_bind; [|intros _ _; apply emits_bind; [|intros _ _; apply IH]].
  - destruct final; [apply emits_complain; right; now left|apply emits_ret].
  - apply response_accounted. rewrite <- (Nat.add_0_r n). rewrite <- A. reflexivity.
  - intro i. specialize (A (S i)). cbn [nth_error] in A. rewrite A. f_equal. lia.
Qed.
Lemma continue_accounted l : forall n expect, emits E accounted (check_continue expect n l).
Proof.
  induction l as [|p l IH]; intros n expect; cbn [check_continue]; [apply emits_ret|]. cbv zeta. apply emits_bind; [|intros _ _; apply IH].
  destruct (_ && _); [apply emits_complain; right; right; now left|apply emits_ret].
Qed.
Lemma exchange_accounted : emits E accounted (check_exchange x).
Proof.
  unfold check_exchange. apply emits_bind.
  - destruct (x_request x) as [q|] eqn:Q; [|apply emits_ret]. apply emits_bind; [now apply request_accounted|]. intros _ _. unfold is_equal. apply emits_bind; [|intros; apply emits_ret].
    apply view_says with (t := t_check_each_header). apply table_accounted; [exists q; auto|]. now left.
  - intros b _. apply emits_bind; [now apply responses_accounted|]. intros _ _. apply continue_accounted.
Qed.

(** *** All of that is reported *)

Lemma quiet_absent c m name : enumerate m name = [] -> v_notices (parse_view (e_read E) c m name) = [].
Proof. intro H. unfold parse_view. rewrite H. destruct c as [| | |[]]; reflexivity. Qed.
(** Whatever is reported while [a] runs is reported while [b] runs, if that
    finishes. *)
Definition within (a : M unit) (R : Prop) (b : list event) : Prop := R -> snd (a E) = Ok tt /\ forall e, In e (fst (a E)) -> In e b.
Lemma seq_within a l : In a l -> within a (snd (seq l E) = Ok tt) (fst (seq l E)).
Proof.
  induction l as [|m l IH]; intros []; cbn [seq]; intro R; apply bind_done in R; destruct R as [[] [M R]].
  - subst a. split; [exact M|]. intros e I. apply bind_in. now left.
  - destruct (IH H R) as [A B]. split; [exact A|]. intros e I. apply bind_in. right. exists tt. auto.
Qed.
Lemma each_within {A} (l : list A) f y e : In y l -> snd (for_each l f E) = Ok tt -> In e (fst (f y E)) -> In e (fst (for_each l f E)).
Proof.
  induction l as [|z l IH]; intros []; cbn [for_each]; intros R I; apply bind_done in R; destruct R as [[] [M R]]; apply bind_in.
  - subst z. now left.
  - right. exists tt. auto.
Qed.
Lemma each_done {A} (l : list A) f y : In y l -> snd (for_each l f E) = Ok tt -> snd (f y E) = Ok tt.
Proof. induction l as [|z l IH]; intros []; cbn [for_each]; intro R; apply bind_done in R; destruct R as [[] [M R]]; [now subst z|auto]. Qed.
(** Every header is read. *)
Lemma each_header_reads j name v n : view_is (e_read E) (m_entries (j_msg j)) name v -> In n (v_notices v) -> snd (check_each_header j E) = Ok tt ->
  In (lift (j_who j) n) (fst (check_each_header j E)).
Proof.
  intros V I R.
  assert (N : exists name', In name' (header_names j) /\ view_is (e_read E) (m_entries (j_msg j)) name' v).
  { pose proof V as V'. apply view_is_iff in V'. destruct V' as [c [C ->]]. destruct (enumerate (m_entries (j_msg j)) name) as [|[p e] l] eqn:L; [rewrite (quiet_absent c L) in I; destruct I|].
    assert (J : In (p, e) (enumerate (m_entries (j_msg j)) name)) by (rewrite L; now left). apply enumerate_in in J. destruct J as [J1 J2].
    destruct (proj1 (proj2 (C33_names (m_entries (j_msg j)))) p e J1) as [name' [A B]]. exists name'. split; [exact A|]. apply (C33_case (e_read E) _ _ (a := name)); [|exact V].
    apply same_name_lower. apply same_name_lower in B. congruence. }
  destruct N as [name' [N V']]. unfold check_each_header in *. apply bind_done in R. destruct R as [[] [R _]]. apply bind_in. left.
  apply each_within with (y := name'); [exact N|exact R|]. apply each_done with (y := name') in R; [|exact N].
  apply bind_done in R. destruct R as [r [R1 R]]. apply bind_done in R. destruct R as [v' [R2 _]]. apply bind_in. right. exists r. split; [exact R1|]. apply bind_in. left.
  apply view_is_iff in V'. destruct V' as [c [C ->]]. unfold ChecksBase.view in *. rewrite C in *. destruct (has_bad _); [discriminate R2|]. cbn [fst]. now apply in_map.
Qed.
Lemma request_within q : within (check_each_header (of_request q)) (snd (check_request q E) = Ok tt) (fst (check_request q E)).
Proof. apply seq_within. unfold request_checks, message_checks. right. now left. Qed.
Lemma response_within n p req : within (check_each_header (of_response n p req)) (snd (check_response n p req E) = Ok tt) (fst (check_response n p req E)).
Proof.
  intro R. unfold check_response in *. apply bind_done in R. destruct R as [[] [R _]].
  destruct (@seq_within (check_each_header (of_response n p req)) (response_checks n p req)) as [A B]; [unfold response_checks, message_checks; right; now left|exact R|].
  split; [exact A|]. intros e I. apply bind_in. left. now apply B.
Qed.
Lemma responses_within l : forall n final i p, nth_error l i = Some p -> snd (check_responses_from (x_request x) n final l E) = Ok tt ->
  snd (check_response (n + i) p (x_request x) E) = Ok tt /\ forall e, In e (fst (check_response (n + i) p (x_request x) E)) -> In e (fst (check_responses_from (x_request x) n final l E)).
Proof.
  induction l as [|p0 l IH]; intros n final i p A R; [destruct i; discriminate A|]. cbn [check_responses_from] in *. apply bind_done in R. destruct R as [[] [R0 R]].
  apply bind_done in R. destruct R as [[] [R1 R]]. destruct i as [|i]; cbn [nth_error] in A.
  - injection A as <-. rewrite Nat.add_0_r. split; [exact R1|]. intros e I. apply bind_in. right. exists tt. split; [exact R0|]. apply bind_in. now left.
  - destruct (IH _ _ i p A R) as [B C]. replace (n + S i) with (S n + i) by lia. split; [exact B|]. intros e I. apply bind_in. right. exists tt. split; [exact R0|]. apply bind_in. right. exists tt. auto.
Qed.
Lemma headers_reported e : on_header E x e -> finished E x -> In e (fst (check_exchange x E)).
Proof.
  intros [w [m [name [v [n [M [V [I ->]]]]]]]] R. unfold finished, check_exchange in *. apply bind_done in R. destruct R as [b [R0 R]]. destruct w as [|i]; cbn [has_message] in M.
  - destruct M as [q [Q ->]]. rewrite Q in *. apply bind_in. left. apply bind_done in R0. destruct R0 as [[] [R0 _]]. destruct (request_within R0) as [A B]. apply bind_in. left. apply B.
    exact (@each_header_reads (of_request q) name v n V I A).
  - destruct M as [p [P ->]]. apply bind_in. right. exists b. split; [exact R0|]. apply bind_done in R. destruct R as [[] [R _]]. apply bind_in. left.
    destruct (responses_within P R) as [A B]. destruct (response_within A) as [C D]. apply B, D. exact (@each_header_reads (of_response i p (x_request x)) name v n V I C).
Qed.
End Heard.

(** ** C67 *)

(** C67.  Only what a rule requires, or what is due to how a header is written,
    is reported, even if checking fails half-way. *)
Theorem C67_sound : forall E x w id ctx, parses_http (e_read E) -> said E x w id ctx ->
  required E x (Said w id ctx) \/ on_header E x (Said w id ctx).
Proof.
  intros E x w id ctx http S. unfold said in S. pose proof (proj1 (@exchange_reports E x http) _ S) as H. destruct H as [A|[[]|H]]; [|now left].
  right. pose proof (exchange_accounted http x) as C. unfold emits in C. rewrite Forall_forall in C. destruct (C _ S) as [K|K]; [exact K|]. exfalso.
  destruct A as [keys A]. pose proof (proj1 (forallb_forall _ _) apart _ A) as N. cbn [fst] in N. apply negb_true_iff in N. rewrite <- not_true_iff_false in N. apply N.
  apply existsb_exists. exists id. split; [exact K|apply N.eqb_refl].
Qed.
Print Assumptions C67_sound.

(** C67.  If checking finishes, all of that is reported. *)
Theorem C67_complete : forall E x w id ctx, parses_http (e_read E) -> finished E x ->
  required E x (Said w id ctx) \/ on_header E x (Said w id ctx) -> said E x w id ctx.
Proof.
  intros E x w id ctx http F [H|H].
  - exact (proj2 (proj2 (@exchange_reports E x http) tt F) _ H).
  - now apply headers_reported.
Qed.
Print Assumptions C67_complete.

(** *** The two kinds of notices are different *)

Definition numbered (r : rule) : bool := existsb (N.eqb (r_id r)) rule_ids.
Lemma request_numbered E q : forallb numbered (List.concat (request_rules E q)) = true.
Proof. vm_compute. reflexivity. Qed.
Lemma response_numbered E n p req : forallb numbered (List.concat (response_rules E n p req)) = true.
Proof.
  unfold response_rules, message_rules. rewrite !concat_app, !forallb_app, !andb_true_iff.
  repeat match goal with |- context [if ?b then _ else _] => destruct b end; repeat split; vm_compute; reflexivity.
Qed.
Lemma context_numbered E n p q : forallb numbered (List.concat (context_rules E n p q)) = true.
Proof.
  unfold context_rules. rewrite !concat_app, !forallb_app, !andb_true_iff.
  repeat match goal with |- context [if ?b then _ else _] => destruct b end; split; vm_compute; reflexivity.
Qed.
Lemma due_numbered t w id ctx : forallb numbered t = true -> due t (Said w id ctx) -> In id rule_ids.
Proof.
  induction t as [|r t IH]; [intros _ []|]. cbn [forallb due]. rewrite andb_true_iff. intros [H1 H2] [[c [D _]]|D]; [|exact (IH H2 D)].
  injection D as -> -> ->. unfold numbered in H1. apply existsb_exists in H1. destruct H1 as [i [I K]]. apply N.eqb_eq in K. now subst i.
Qed.
Theorem C67_apart : forall E x w id ctx w' ctx', parses_http (e_read E) -> required E x (Said w id ctx) -> on_header E x (Said w' id ctx') -> False.
Proof.
  intros E x w id ctx w' ctx' http H [u [m [name [v [k [_ [V [I L]]]]]]]].
  assert (R : In id rule_ids).
  { remember (Said w id ctx) as e eqn:Ev. destruct H as [q e Q H|n p e P H|n p q e P Q H|n p f pf P _ _ _ _|n p q P _ _ _ _]; subst.
    - exact (due_numbered (request_numbered E q) H).
    - exact (due_numbered (response_numbered E n p (x_request x)) H).
    - exact (due_numbered (context_numbered E n p q) H).
    - injection Ev as _ <- _. now left.
    - injection Ev as _ <- _. right. now left. }
  apply view_is_iff in V. destruct V as [c [C ->]]. pose proof (view_ok http c (m_entries m) name) as Q. rewrite Forall_forall in Q. destruct (Q _ I) as [keys [J _]].
  injection L as _ -> _. pose proof (proj1 (forallb_forall _ _) apart _ J) as N. cbn [fst] in N. apply negb_true_iff in N. rewrite <- not_true_iff_false in N. apply N.
  apply existsb_exists. exists (fst k). split; [exact R|apply N.eqb_refl].
Qed.
Print Assumptions C67_apart.

(** ** An example *)

Definition odd_exchange : exchange := Exchange (Some waiting_request)
  [empty_response 204 [("Date", "today")]; empty_response 204 []].
Lemma odd_run : finished example_env odd_exchange.
Proof. vm_compute. reflexivity. Qed.
(** No User-Agent; a second final response; a date that is no date; nothing
    requires 1305. *)
Example C67_example : parses_http (e_read example_env) /\ finished example_env odd_exchange /\
  (required example_env odd_exchange (Said Req 1070 []) /\ said example_env odd_exchange Req 1070 []) /\
  (required example_env odd_exchange (Said (Resp 1) 1304 [(s "previous", CResponse 0)]) /\ said example_env odd_exchange (Resp 1) 1304 [(s "previous", CResponse 0)]) /\
  (exists ctx, on_header example_env odd_exchange (Said (Resp 0) 1000 ctx) /\ said example_env odd_exchange (Resp 0) 1000 ctx) /\
  (forall w ctx, ~ required example_env odd_exchange (Said w 1305 ctx)).
Proof.
  assert (A : required example_env odd_exchange (Said Req 1070 [])).
  { apply by_request with (q := waiting_request); [reflexivity|]. apply due_concat. exists (rules_user_agent example_env waiting_request). split.
    - unfold request_rules. apply in_or_app. right. do 16 right. now left.
    - left. exists []. split; [reflexivity|]. split; [reflexivity|]. intros [p [e U]]. apply (proj1 (kept_usable (m_entries (q_msg waiting_request)) (s "User-Agent")) p e) in U. exact U. }
  assert (B : required example_env odd_exchange (Said (Resp 1) 1304 [(s "previous", CResponse 0)])).
  { apply by_final with (p := empty_response 204 []) (pf := empty_response 204 [("Date", "today")]); [reflexivity|lia|reflexivity| |intros; lia].
    unfold final, class. cbn [p_status empty_response]. lia. }
  assert (C : exists ctx, on_header example_env odd_exchange (Said (Resp 0) 1000 ctx)).
  { eexists. exists (Resp 0), (p_msg (empty_response 204 [("Date", "today")])), (s "Date"), (parse_view (e_read example_env) SingleView (headers_of [("Date", "today")]) (s "Date")).
    eexists. split; [exists (empty_response 204 [("Date", "today")]); split; reflexivity|]. split; [apply view_is_iff; exists SingleView; split; reflexivity|]. split; [left; reflexivity|reflexivity]. }
  split; [exact example_parses|]. split; [exact odd_run|]. split; [|split; [|split]].
  - split; [exact A|]. apply C67_complete; [exact example_parses|exact odd_run|now left].
  - split; [exact B|]. apply C67_complete; [exact example_parses|exact odd_run|now left].
  - destruct C as [ctx C]. exists ctx. split; [exact C|]. apply C67_complete; [exact example_parses|exact odd_run|now right].
  - intros w ctx H. assert (S : said example_env odd_exchange w 1305 ctx) by (apply C67_complete; [exact example_parses|exact odd_run|now left]).
    assert (N : forallb (fun e => match e with Said _ id _ => negb (N.eqb id 1305) | Silenced _ _ => true end) (fst (check_exchange odd_exchange example_env)) = true) by (vm_compute; reflexivity).
    pose proof (proj1 (forallb_forall _ _) N _ S) as K. discriminate K.
Qed.
