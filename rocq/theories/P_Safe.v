(** C56: which exceptions can escape from [check_exchange]. *)
From Coq Require Import ZifyBool ZifyNat ZifyN String.
From Verif Require Import Base Earley Grammar Syntax Actions Reading Nested NestedTypes Types P_Types Text Structure Known Tables Header HeaderProofs P_Header P_Views Values
  ViewFacts ChecksBase ChecksLogic ChecksViews ChecksFacts ChecksSafe ChecksMessage ChecksRequest ChecksResponse SafeMessage SafeRequest SafeResponse ChecksExample HeaderValue.
Open Scope nat_scope.
Open Scope list_scope.
Unset Strict Implicit.
Local Open Scope string_scope.
Local Open Scope list_scope.

(** ** What is to blame for an exception *)

(** The messages of an exchange. *)
Inductive message_of (x : exchange) : msg -> Prop :=
| mo_request q : x_request x = Some q -> message_of x (q_msg q)
| mo_response p : In p (x_responses x) -> message_of x (p_msg p).
(** Text that is there is a string, octets are octets: bodies are of the types
    that the constructors of messages are documented to take. *)
Definition well_typed (x : exchange) : Prop := forall m, message_of x m -> proper m.

(** Why an exception may escape.  There is no reason for a mistake in the checks
    themselves ([Mistake] stands for [TypeError], [AttributeError],
    [KeyError]...). *)
Inductive blame (E : env) (x : exchange) : exn -> Prop :=
(** A Link header with parameters whose processing raises (see [C65_link_refuted]). *)
| blame_link m u : message_of x m -> header_value E m "Link" u -> crashed u -> blame E x FromLink
(** A 451 response with a [rel] parameter that could not be read. *)
| blame_relation p links uri params c k y : In p (x_responses x) -> p_status p = 451%Z ->
    header_value E (p_msg p) "Link" (VList links) -> In (VObj (s "Parametrized") [uri; VObj (s "MultiDict") [VList params]]) links ->
    In (VTuple [VObj c [VStr k]; VUnavailable y]) params -> map lower_c k = s "rel" -> blame E x FromRelation
(** A response whose Date plus its Age is after the year 9999. *)
| blame_date p date d a : In p (x_responses x) -> p_status p <> 103%Z -> header_value E (p_msg p) "Date" date -> time_like date = Some d ->
    header_value E (p_msg p) "Age" (VInt a) -> (last_moment < d + a * micro)%Z -> blame E x FromDate
(** A function of a library raises an exception that the code does not expect. *)
| blame_library : library_raises E -> blame E x FromLibrary.

(** ** Exchanges *)

Section Exchange.
Variable E : env.
Variable x : exchange.
Hypothesis http : parses_http (e_read E).
Hypothesis typed : well_typed x.
Notation known := (message_of x).
Notation calm := (calm E (blame E x)).

Lemma value_got m name : header_value E m name (v_value (got_view (e_read E) (m_entries m) (s name))).
Proof. eexists. split; [apply got_is|reflexivity]. Qed.
Lemma link_blame m : known m -> crashed (v_value (got_view (e_read E) (m_entries m) (s "Link"))) -> blame E x FromLink.
Proof. intros K C. exact (blame_link K (value_got m "Link") C). Qed.
Lemma library_blame : library_raises E -> blame E x FromLibrary.
Proof. apply blame_library. Qed.
Lemma response_calm n p : In p (x_responses x) -> calm (check_response n p (x_request x)).
Proof.
  intro P. apply (@response_ok E (blame E x) http known link_blame typed library_blame).
  - exact (mo_response P).
  - intros q Q. exact (mo_request Q).
  - intros d a S D A L. eapply blame_date; [exact P|exact S|apply (value_got (p_msg p))|exact D| |exact L]. rewrite <- A. apply (value_got (p_msg p)).
  - intros l uri ps c k y S G I1 I2 K. eapply blame_relation; [exact P|exact S| |exact I1|exact I2|exact K]. rewrite <- G. apply (value_got (p_msg p)).
Qed.
Lemma responses_calm l : forall n final, incl l (x_responses x) -> calm (check_responses_from (x_request x) n final l).
Proof.
  induction l as [|p l IH]; intros n final H; [exact I|]. cbn [check_responses_from]. eapply calm_then; [destruct final; exact I|]. apply calm_then.
  - apply response_calm, H. now left.
  - apply IH. intros r R. apply H. now right.
Qed.
Lemma continue_calm l : forall expect n, calm (check_continue expect n l).
Proof. induction l as [|p l IH]; intros expect n; [exact I|]. cbn [check_continue]. cbv zeta. apply calm_then; [|apply IH]. destruct (_ && _); exact I. Qed.
Lemma exchange_calm : calm (check_exchange x).
Proof.
  unfold check_exchange. eapply safe_bind with (P := fun _ => True).
  - destruct (x_request x) as [q|] eqn:Q; [|exact I]. apply calm_then.
    + apply (@request_ok E (blame E x) http known link_blame typed library_blame). exact (mo_request Q).
    + eapply safe_calm, (@safe_equal E (blame E x) http known link_blame); exact (mo_request Q).
  - intros expect _. apply calm_then; [apply responses_calm; apply incl_refl|]. apply continue_calm.
Qed.
End Exchange.

(** ** When there is nobody to stop it *)

Section Ran.
Variable E : env.
Definition ran {A} (m : M A) : Prop := exists v, snd (m E) = Ok v.
Lemma ran_bind {A B} (m : M A) (f : A -> M B) : ran (bind m f) -> exists v, snd (m E) = Ok v /\ ran (f v).
Proof.
  unfold ran, bind. intros [v H]. destruct (m E) as [es [u|e]]; cbn [snd] in *; [|discriminate H]. exists u. split; [reflexivity|]. exists v. destruct (f u E). exact H.
Qed.
Lemma ran_first {A B} (m : M A) (f : A -> M B) : ran (bind m f) -> ran m.
Proof. intro H. apply ran_bind in H. destruct H as [v [H _]]. now exists v. Qed.
Lemma ran_second {A B} (m : M A) (f : M B) : ran (m ;;; f) -> ran f.
Proof. intro H. apply ran_bind in H. destruct H as [v [_ H]]. exact H. Qed.
Lemma ran_each {A} (l : list A) (f : A -> M unit) : ran (for_each l f) -> forall y, In y l -> ran (f y).
Proof.
  induction l as [|z l IH]; [intros _ y []|]. cbn [for_each]. intros H y [<-|Y]; [exact (ran_first H)|]. exact (IH (ran_second H) y Y).
Qed.
Lemma ran_seq l : ran (seq l) -> forall m, In m l -> ran m.
Proof. apply ran_each. Qed.

(** Every message of the exchange is checked. *)
Lemma responses_ran req l : forall n final, ran (check_responses_from req n final l) -> forall p, In p l -> exists i, ran (check_response i p req).
Proof.
  induction l as [|r l IH]; intros n final H p P; [destruct P|]. cbn [check_responses_from] in H. apply ran_second in H. destruct P as [<-|P]; [exists n; exact (ran_first H)|].
  exact (IH _ _ (ran_second H) p P).
Qed.
Lemma exchange_ran x : ran (check_exchange x) ->
  (forall q, x_request x = Some q -> ran (check_request q)) /\ forall p, In p (x_responses x) -> exists n, ran (check_response n p (x_request x)).
Proof.
  intro H. unfold check_exchange in H. split.
  - intros q Q. apply ran_first in H. rewrite Q in H. exact (ran_first H).
  - apply ran_bind in H. destruct H as [b [_ H]]. apply ran_first in H. exact (responses_ran H).
Qed.

(** Link *)
Lemma link_class : match header_of (s "Link") with Some i => hk_rule i = Some RMulti | None => False end.
Proof. vm_compute. reflexivity. Qed.
Lemma link_is_read j : ran (check_each_header j) -> forall u, header_value E (j_msg j) "Link" u -> ~ crashed u.
Proof.
  intros H1 u [v [V <-]] C. unfold check_each_header in H1. apply ran_first in H1.
  destruct (C33_names (m_entries (j_msg j))) as [_ [N _]]. destruct (C33_entries V) as [us [c [U _]]]. destruct us as [ |[p e] us].
  - pose proof link_class as K. destruct (header_of (s "Link")) as [i|] eqn:Q; [|destruct K]. apply known_as_iff in Q.
    destruct (C35_multi Q K U V) as [_ [vs [F2 [L _]]]]. inversion F2; subst vs. specialize (L [] (Forall2_nil _)). rewrite L in C. cbn in C. inversion C as [ | ? ? I | | ]; subst. destruct I.
  - destruct (proj1 (proj1 U p e) (or_introl eq_refl)) as [P [S _]]. destruct (N p e P) as [n [I M]].
    assert (S' : P_Header.same_name (s "Link") n) by (rewrite same_name_lower in *; congruence).
    pose proof (@ran_each _ _ _ H1 n I) as R. cbv beta in R. apply ran_second, ran_first in R.
    destruct (view_run E j n) as [w [W Y]]. apply (proj1 (C33_case _ _ _ S')) in V. pose proof (view_unique V W) as <-. apply has_bad_crashed in C. rewrite C in Y.
    destruct R as [r R]. rewrite Y in R. discriminate R.
Qed.

(** Date and Age *)
Lemma age_is_added n p req : ran (check_from_cache n p req) -> p_status p <> 103%Z -> forall date d a, header_value E (p_msg p) "Date" date -> time_like date = Some d ->
  header_value E (p_msg p) "Age" (VInt a) -> ~ (last_moment < d + a * micro)%Z.
Proof.
  intros H S date d a D T A L. unfold check_from_cache, when, ifM, yesM in H. apply ran_first, ran_first in H. unfold from_cache, status_in in H. cbn [existsb] in H.
  replace (p_status p =? 103)%Z with false in H by lia. cbn [orb] in H. unfold ifM at 1 in H. apply ran_first in H. unfold from_cache_date, ifM in H.
  assert (V : forall key u, header_value E (p_msg p) key u -> forall w, snd (value (of_response n p req) key E) = Ok w -> w = u).
  { intros key u [v [V <-]] w. unfold value, bind. destruct (view_run E (of_response n p req) (s key)) as [v' [V' R]]. pose proof (view_unique V V') as <-. rewrite R. destruct (has_bad _); cbn [snd]; [discriminate|]. cbn. congruence. }
  assert (O : forall key u, header_value E (p_msg p) key u -> okay_value u = true -> forall b, snd (okayM (of_response n p req) key E) = Ok b -> b = true).
  { intros key u [v [V0 <-]] Y b. unfold okayM, bind. destruct (view_run E (of_response n p req) (s key)) as [v' [V' R]]. pose proof (view_unique V0 V') as <-. rewrite R. destruct (has_bad _); cbn [snd]; [discriminate|]. cbn. unfold is_okay. congruence. }
  apply ran_bind in H. destruct H as [b [H K]]. unfold andM in H.
  assert (B : b = true).
  { unfold bind in H. destruct (okayM (of_response n p req) "Date" E) as [es [r|e]] eqn:Q; cbn [snd] in H; [|discriminate H].
    assert (r = true) as -> by (refine (O "Date" _ D _ r _); [destruct date; try discriminate T; reflexivity|now rewrite Q]).
    destruct (okayM (of_response n p req) "Age" E) as [es' [r|e]] eqn:Q2; cbn [snd] in H; [|discriminate H].
    assert (r = true) as -> by (refine (O "Age" _ A eq_refl r _); now rewrite Q2). congruence. }
  subst b. cbv iota in K. apply ran_bind in K. destruct K as [w [W K]]. apply (V _ _ D) in W. subst w. rewrite T in K. apply ran_bind in K. destruct K as [d' [D' K]]. injection D' as <-.
  apply ran_bind in K. destruct K as [w [W K]]. apply (V _ _ A) in W. subst w. cbn [some_of] in K. apply ran_bind in K. destruct K as [a' [A' K]]. cbn in A'. injection A' as <-.
  apply ran_bind in K. destruct K as [now [_ K]]. destruct (last_moment <? d + a * micro)%Z eqn:Y; [|lia]. destruct K as [r K]. discriminate K.
Qed.
End Ran.

(** ** The theorems *)

(** C56.  Whatever the messages of the exchange are, if an exception escapes
    from the checks, one of the reasons above is there.  So it is never a
    mistake of the checks: every attribute they use exists, everything they
    compare can be compared. *)
Theorem C56_blame : forall E x e, parses_http (e_read E) -> well_typed x -> snd (check_exchange x E) = Raise e -> blame E x e.
Proof. intros E x e H T R. pose proof (exchange_calm H T) as K. unfold calm, safe in K. rewrite R in K. exact K. Qed.
Print Assumptions C56_blame.
Theorem C56_no_mistake : forall E x, parses_http (e_read E) -> well_typed x -> snd (check_exchange x E) <> Raise Mistake.
Proof. intros E x H T R. pose proof (C56_blame H T R) as B. inversion B. Qed.
Print Assumptions C56_no_mistake.

(** C56.  Checking ends with no exception, if the libraries behave, and none of
    three things is in the messages: a Link header that cannot be processed, a
    451 response with a [rel] that cannot be read, or an Age that leads beyond
    the year 9999. *)
Theorem C56_finishes : forall E x, parses_http (e_read E) -> well_typed x -> ~ library_raises E ->
  (forall m u, message_of x m -> header_value E m "Link" u -> ~ crashed u) ->
  (forall p links uri params c k y, In p (x_responses x) -> p_status p = 451%Z -> header_value E (p_msg p) "Link" (VList links) ->
     In (VObj (s "Parametrized") [uri; VObj (s "MultiDict") [VList params]]) links -> ~ (In (VTuple [VObj c [VStr k]; VUnavailable y]) params /\ map lower_c k = s "rel")) ->
  (forall p date d a, In p (x_responses x) -> p_status p <> 103%Z -> header_value E (p_msg p) "Date" date -> time_like date = Some d ->
     header_value E (p_msg p) "Age" (VInt a) -> (d + a * micro <= last_moment)%Z) ->
  snd (check_exchange x E) = Ok tt.
Proof.
  intros E x H T L K R D. destruct (snd (check_exchange x E)) as [[]|e] eqn:Q; [reflexivity|]. exfalso.
  destruct (C56_blame H T Q) as [m u M V C|p links uri ps c k y P S V I1 I2 N|p date d a P S V1 V2 A X|B].
  - exact (K m u M V C).
  - exact (R p links uri ps c k y P S V I1 (conj I2 N)).
  - specialize (D p date d a P S V1 V2 A). lia.
  - exact (L B).
Qed.
Print Assumptions C56_finishes.

(** C56.  Two of the reasons always stop the checks: the exchange is not checked
    to the end if one of its messages has such a Link header, or one of its
    responses such a Date and Age. *)
Theorem C56_stopped : forall E x, snd (check_exchange x E) = Ok tt ->
  (forall m u, message_of x m -> header_value E m "Link" u -> ~ crashed u) /\
  (forall p date d a, In p (x_responses x) -> p_status p <> 103%Z -> header_value E (p_msg p) "Date" date -> time_like date = Some d ->
     header_value E (p_msg p) "Age" (VInt a) -> (d + a * micro <= last_moment)%Z).
Proof.
  intros E x Q. assert (R : ran E (check_exchange x)) by (now exists tt). apply exchange_ran in R. destruct R as [RQ RP]. split.
  - intros m u M. destruct M as [q M|p P].
    + pose proof (RQ q M) as H. unfold check_request, request_checks in H. refine (@link_is_read E (of_request q) _ u). refine (ran_seq H _).
      apply in_or_app. right. apply in_or_app. left. now left.
    + destruct (RP p P) as [n H]. unfold check_response, check_response_itself, response_checks in H. apply ran_first in H.
      refine (@link_is_read E (of_response n p (x_request x)) _ u). refine (ran_seq H _). apply in_or_app. right. apply in_or_app. left. now left.
  - intros p date d a P S D V A. destruct (RP p P) as [n H]. unfold check_response, check_response_itself in H. apply ran_first in H.
    assert (F : ran E (check_from_cache n p (x_request x))).
    { refine (ran_seq H _). unfold response_checks. do 3 (apply in_or_app; right). unfold early, status_in. cbn [existsb]. replace (p_status p =? 103)%Z with false by lia. cbn [orb].
      do 6 right. now left. }
    pose proof (age_is_added F S D V A). lia.
Qed.
Print Assumptions C56_stopped.

(** ** An exchange that is checked to the end, and one that is not *)

Definition safe_texts : list (symbol * string * val) := [
  (Syntax.Date, "Thu, 01 Jan 2015 00:00:00 GMT", VObj (s "datetime") [VInt 2015; VInt 1; VInt 1; VInt 0; VInt 0; VInt 0]);
  (Age, "3600", VInt 3600); (Age, "999999999999", VInt 999999999999)].
Definition safe_env : env := let E := env_with safe_texts in {|
  e_read := e_read E; e_now := e_now E; e_gzip := e_gzip E; e_deflate := e_deflate E; e_brotli := e_brotli E; e_codec := e_codec E; e_decode := e_decode E;
  e_replace := e_replace E; e_json := e_json E; e_xml := e_xml E; e_email := fun _ => Got (Email [] None); e_qs := e_qs E; e_url := e_url E; e_join := e_join E;
  e_base64 := e_base64 E; e_fnmatch := e_fnmatch E |}.
Lemma safe_parses : parses_http (e_read safe_env).
Proof.
  change (parses_http (e_read (env_with safe_texts))). apply (@env_parses 600).
  repeat apply Forall_cons; try apply Forall_nil; match goal with |- _ = ?r => vm_cast_no_check (eq_refl r) end.
Qed.
Definition aged (age : string) : exchange := Exchange (Some (Request (Message (Some (s "HTTP/1.1")) (headers_of []) (VBytes []) None None) (Some (s "http")) (s "GET") (s "/")))
  [empty_response 451 [("Date", "Thu, 01 Jan 2015 00:00:00 GMT"); ("Age", age); ("Link", "x")]].
Lemma aged_typed age : well_typed (aged age).
Proof. intros m M. destruct M as [q M|p [<-|[]]]; [injection M as <-|]; (split; [exact I|split; intros v V; discriminate V]). Qed.
Lemma value_is E m name u : header_value E m name u -> u = v_value (got_view (e_read E) (m_entries m) (s name)).
Proof. intros [v [V <-]]. now rewrite (view_unique V (got_is _ _ _)). Qed.
(** A Link that is not one: its value is unavailable.  (Running the parser on one that is takes long; see
    [C107_links] for what it would give.) *)
Definition safe_link : val := VList [VUnavailable (VBytes (s "x"))].
Lemma aged_headers p : In p (x_responses (aged "3600")) -> p_status p = 451%Z /\
  v_value (got_view (e_read safe_env) (m_entries (p_msg p)) (s "Date")) = VObj (s "datetime") [VInt 2015; VInt 1; VInt 1; VInt 0; VInt 0; VInt 0] /\
  v_value (got_view (e_read safe_env) (m_entries (p_msg p)) (s "Age")) = VInt 3600 /\
  v_value (got_view (e_read safe_env) (m_entries (p_msg p)) (s "Link")) = safe_link.
Proof. intros [<-|[]]. vm_compute. repeat split. Qed.
Lemma safe_link_calm : ~ crashed safe_link.
Proof. intro C. apply has_bad_crashed in C. vm_compute in C. discriminate C. Qed.
Example C56_example : parses_http (e_read safe_env) /\ well_typed (aged "3600") /\ ~ library_raises safe_env /\
  (forall m u, message_of (aged "3600") m -> header_value safe_env m "Link" u -> ~ crashed u) /\
  (forall p links uri params c k y, In p (x_responses (aged "3600")) -> p_status p = 451%Z -> header_value safe_env (p_msg p) "Link" (VList links) ->
     In (VObj (s "Parametrized") [uri; VObj (s "MultiDict") [VList params]]) links -> ~ (In (VTuple [VObj c [VStr k]; VUnavailable y]) params /\ map lower_c k = s "rel")) /\
  (forall p date d a, In p (x_responses (aged "3600")) -> p_status p <> 103%Z -> header_value safe_env (p_msg p) "Date" date -> time_like date = Some d ->
     header_value safe_env (p_msg p) "Age" (VInt a) -> (d + a * micro <= last_moment)%Z) /\
  snd (check_exchange (aged "3600") safe_env) = Ok tt.
Proof.
  assert (A : parses_http (e_read safe_env)) by exact safe_parses. assert (B : well_typed (aged "3600")) by apply aged_typed.
  assert (C : ~ library_raises safe_env).
  { intro L. destruct L as [x L|c x L|x L|x L|x L|x L|x L|x L|x y L]; try discriminate L. cbn in L. destruct (str_eqb x _); discriminate L. }
  assert (D : forall m u, message_of (aged "3600") m -> header_value safe_env m "Link" u -> ~ crashed u).
  { intros m u M V. apply value_is in V. destruct M as [q M|p P].
    - injection M as <-. subst u. intro X. apply has_bad_crashed in X. vm_compute in X. discriminate X.
    - destruct (aged_headers P) as [_ [_ [_ L]]]. rewrite L in V. subst u. exact safe_link_calm. }
  assert (F : forall p links uri params c k y, In p (x_responses (aged "3600")) -> p_status p = 451%Z -> header_value safe_env (p_msg p) "Link" (VList links) ->
     In (VObj (s "Parametrized") [uri; VObj (s "MultiDict") [VList params]]) links -> ~ (In (VTuple [VObj c [VStr k]; VUnavailable y]) params /\ map lower_c k = s "rel")).
  { intros p links uri ps c k y P _ V I1 [I2 _]. apply value_is in V. destruct (aged_headers P) as [_ [_ [_ L]]]. rewrite L in V. injection V as ->. destruct I1 as [I1|[]]. discriminate I1. }
  assert (G : forall p date d a, In p (x_responses (aged "3600")) -> p_status p <> 103%Z -> header_value safe_env (p_msg p) "Date" date -> time_like date = Some d ->
     header_value safe_env (p_msg p) "Age" (VInt a) -> (d + a * micro <= last_moment)%Z).
  { intros p date d a P _ V T W. apply value_is in V, W. destruct (aged_headers P) as [_ [L1 [L2 _]]]. rewrite L1 in V. rewrite L2 in W. subst date. injection W as ->.
    vm_compute in T. injection T as <-. vm_compute. discriminate. }
  exact (conj A (conj B (conj C (conj D (conj F (conj G (C56_finishes A B C D F G))))))).
Qed.
(** Refuted: no value of Age makes the check raise. *)
Theorem C56_age_refuted : exists E x, parses_http (e_read E) /\ well_typed x /\ ~ library_raises E /\
  snd (check_exchange x E) = Raise FromDate.
Proof.
  exists safe_env, (aged "999999999999"). split; [exact safe_parses|]. split; [apply aged_typed|]. split; [exact (proj1 (proj2 (proj2 C56_example)))|].
  vm_compute. reflexivity.
Qed.
Print Assumptions C56_age_refuted.
