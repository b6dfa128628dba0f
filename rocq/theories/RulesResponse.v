(** Responses are checked by the rules for responses. *)
From Coq Require Import ZifyBool ZifyNat ZifyN String.
From Verif Require Import Base Earley Grammar Syntax Actions Nested P_Types Text Structure Known Tables Header HeaderProofs P_Header P_Views P_Util Values Notices
  ChecksBase ChecksLogic ChecksViews ChecksFacts ChecksSays ChecksMessage ChecksRequest ChecksResponse HeaderValue P_Bodies RulesLogic Rules RulesBase RulesMessage RulesPayload
  RulesAny RulesRequest RulesOfResponse.
Open Scope nat_scope.
Open Scope list_scope.
Unset Strict Implicit.
Local Open Scope string_scope.
Local Open Scope list_scope.

Lemma status_in_iff p l : status_in p l = true <-> status p l.
Proof. unfold status_in, status. rewrite existsb_exists. split; [intros [x [I H]]; apply Z.eqb_eq in H; now subst|]. intro I. exists (p_status p). split; [exact I|apply Z.eqb_refl]. Qed.
Lemma between_iff lo hi x : between lo hi x = true <-> (lo <= x <= hi)%Z.
Proof. unfold between. lia. Qed.
Lemma bare_iff v : is_bare v = true <-> veq v (VBool true) = true \/ veq v (VList []) = true.
Proof. unfold is_bare. apply orb_true_iff. Qed.
Lemma not_at_all_iff p : cacheability p NotAtAll = true <-> status_says (p_status p) NotAtAll.
Proof. rewrite <- status_iff. unfold cacheability. destruct (status_cacheable (p_status p)) as [[| |]|]; split; congruence. Qed.
Lemma not_by_default_iff p : cacheability p NotByDefault = true <-> status_says (p_status p) NotByDefault.
Proof. rewrite <- status_iff. unfold cacheability. destruct (status_cacheable (p_status p)) as [[| |]|]; split; congruence. Qed.

(** Steps to a set of notices that is given. *)
Lemma does_choose E W {A} c (a b : M A) P D (R : A -> Prop) : tests E W c P -> (P -> does E W a D R) -> (~ P -> does E W b D R) -> does E W (ifM c a b) D R.
Proof.
  intros H F G. unfold ifM. eapply does_any; [exact H|]. intros v V. destruct v; [apply F; tauto|]. apply G. intro p. apply V in p. discriminate p.
Qed.
Lemma does_said E W {A} j id ctx (v : A) (D : event -> Prop) (R : A -> Prop) : (forall e, D e <-> e = Said (j_who j) id ctx) -> R v -> does E W (say j id ctx ;;; ret v) D R.
Proof. intros H K. eapply does_to; [eapply does_then with (D' := nothing); [apply does_say|apply does_ret; exact K]|]. intro e. rewrite H. unfold nothing. tauto. Qed.
Lemma does_none E W {A} (v : A) (D : event -> Prop) (R : A -> Prop) : (forall e, ~ D e) -> R v -> does E W (ret v) D R.
Proof. intros H K. eapply does_to; [apply does_ret; exact K|]. intro e. unfold nothing. specialize (H e). tauto. Qed.

Section Response.
Variable E : env.
Variable W : event -> Prop.
Hypothesis http : parses_http (e_read E).
Variable n : nat.
Variable p : response.
Variable req : option request.
Let j := of_response n p req.
Notation m := (p_msg p).
Notation w := (Resp n).
Notation st := (p_status p).
Notation follows := (follows E W).

Lemma informational_iff : informational st = true <-> class p 1.
Proof. apply between_iff. Qed.
Lemma successful_iff : successful st = true <-> class p 2.
Proof. apply between_iff. Qed.
Lemma redirection_iff : redirection st = true <-> class p 3.
Proof. apply between_iff. Qed.
Lemma client_iff : client_error st = true <-> class p 4.
Proof. apply between_iff. Qed.
Lemma server_iff : server_error st = true <-> class p 5.
Proof. apply between_iff. Qed.
Ltac known_meaning ::=
  lazymatch goal with
  | |- status_in _ _ = true <-> _ => apply status_in_iff
  | |- between _ _ _ = true <-> _ => apply between_iff
  | |- informational _ = true <-> _ => apply informational_iff
  | |- successful _ = true <-> _ => apply successful_iff
  | |- redirection _ = true <-> _ => apply redirection_iff
  | |- client_error _ = true <-> _ => apply client_iff
  | |- server_error _ = true <-> _ => apply server_iff
  | |- is_bare _ = true <-> _ => apply bare_iff
  | |- cacheability _ NotAtAll = true <-> _ => apply not_at_all_iff
  | |- cacheability _ NotByDefault = true <-> _ => apply not_by_default_iff
  end.
Lemma tests_cc_true key : tests E W (cc_true n p req key) (directs E m key).
Proof. unfold cc_true, cc. apply (@tests_directive E W http j "Cache-Control" key); [reflexivity|]. intro; apply iff_refl. Qed.
Lemma tests_cc_none key : tests E W (cc_none n p req key) (without E m key).
Proof.
  unfold cc_none, cc. eapply tests_iff; [apply (@tests_directive E W http j "Cache-Control" key); [reflexivity|]; intro; apply is_none_iff|].
  unfold without. split; [intros [v [H ->]]; exact H|intro H; eauto].
Qed.
Lemma tests_cc_bare key : tests E W (cc_bare n p req key) (bare E m key).
Proof. unfold cc_bare, cc. apply (@tests_directive E W http j "Cache-Control" key); [reflexivity|]. intro; apply bare_iff. Qed.
Ltac known_test ::=
  lazymatch goal with
  | |- tests _ _ (cc_true _ _ _ _) _ => apply tests_cc_true
  | |- tests _ _ (cc_none _ _ _ _) _ => apply tests_cc_none
  | |- tests _ _ (cc_bare _ _ _ _) _ => apply tests_cc_bare
  | |- tests _ _ (code_between _ _ _) _ => apply tests_code
  end.
Ltac table' := open_table; unfold rname, rarg; cbn [j_msg j_who j_status j_request of_request of_response] in *; split; intro; table_one.

Lemma status_range : follows (check_status_range n p req) (rules_status_range n p).
Proof. eapply does_to; [unfold check_status_range; walk|]. table'. Qed.
Lemma response_headers : follows (check_response_headers n p req) (rules_response_headers n p).
Proof. eapply does_to; [unfold check_response_headers; walk|]. table'. Qed.
Lemma switching : follows (check_switching n p req) (rules_switching n p).
Proof. eapply does_to; [unfold check_switching; walk|]. table'. Qed.
Lemma no_content_body : follows (check_no_content_body n p req) (rules_no_content_body n p).
Proof. eapply does_to; [unfold check_no_content_body; walk|]. table'. Qed.
Lemma reset_content_body : follows (check_reset_content_body n p req) (rules_reset_content_body n p).
Proof. eapply does_to; [unfold check_reset_content_body; walk|]. table'. Qed.
Lemma status_apart a b : existsb (fun x => existsb (Z.eqb x) b) a = false -> status p a -> status p b -> False.
Proof.
  unfold status. intros H A B. assert (K : existsb (fun x => existsb (Z.eqb x) b) a = true); [|congruence].
  apply existsb_exists. exists st. split; [exact A|]. apply existsb_exists. exists st. split; [exact B|apply Z.eqb_refl].
Qed.
Ltac statuses := unfold status, class, late in *; cbn [In] in *; lia.
Ltac dig ::=
  lazymatch goal with
  | |- exists _, _ => eexists; dig
  | |- _ /\ _ => split; [dig|dig]
  | |- _ \/ _ => first [left; solve [dig]|right; solve [dig]]
  | |- True => exact Logic.I
  | |- False => fail
  | |- ~ is_one ?x ?b => first [assumption|match goal with H : is_one x ?a |- _ => let K := fresh in intro K; refine (@apart_ones x a b _ H K); reflexivity end]
  | |- ~ is_header ?x ?b => first [assumption|match goal with H : is_header x ?a |- _ => let K := fresh in intro K; refine (@apart_names x a b _ H K); reflexivity end]
  | |- ~ status _ _ => first [assumption|statuses]
  | |- status _ _ => first [assumption|statuses]
  | |- ~ class _ _ => first [assumption|statuses]
  | |- class _ _ => first [assumption|statuses]
  | |- late _ => first [assumption|statuses]
  | |- _ => first [reflexivity|multimatch goal with H : _ |- _ => exact H end|solve [eauto 4]]
  end.
Lemma location_missing : follows (check_location_missing n p req) (rules_location_missing n p).
Proof. eapply does_to; [unfold check_location_missing; walk|]. table'. Qed.
Lemma odd_status : follows (check_odd_status n p req) (rules_odd_status n p).
Proof. eapply does_to; [unfold check_odd_status; walk|]. table'. Qed.
Lemma allow_missing : follows (check_allow_missing n p req) (rules_allow_missing n p).
Proof. eapply does_to; [unfold check_allow_missing; walk|]. table'. Qed.
Lemma timeout_close : follows (check_timeout_close n p req) (rules_timeout_close E n p).
Proof. eapply does_to; [unfold check_timeout_close; walk|]. table'. Qed.
Lemma date_missing : follows (check_date_missing n p req) (rules_date_missing n p).
Proof. eapply does_to; [unfold check_date_missing; walk|]. table'. Qed.
Lemma last_modified : follows (check_last_modified n p req) (rules_last_modified E n p).
Proof. eapply does_to; [unfold check_last_modified; walk|]. table'. Qed.
Lemma headers_304 : follows (check_304_headers n p req) (rules_304_headers n p).
Proof. eapply does_to; [unfold check_304_headers; walk|]. table'. Qed.
Lemma response_directives : follows (check_response_directives n p req) (rules_response_directives E n p).
Proof. eapply does_to; [unfold check_response_directives; walk|]. table'. Qed.
Lemma pragma_no_cache : follows (check_pragma_no_cache n p req) (rules_pragma_no_cache E n p).
Proof. eapply does_to; [unfold check_pragma_no_cache; walk|]. table'. Qed.
Lemma alt_svc : follows (check_alt_svc n p req) (rules_alt_svc n p).
Proof. eapply does_to; [unfold check_alt_svc; walk|]. table'. Qed.
Lemma accept_patch : follows (check_accept_patch n p req) (rules_accept_patch E n p).
Proof. eapply does_to; [unfold check_accept_patch; walk|]. table'. Qed.
Lemma response_pairs : follows (check_response_pairs n p req) (rules_response_pairs E n p).
Proof.
  eapply does_to; [unfold check_response_pairs; walk|]. open_table. split.
  - intros [[x y] [I [[A B] ->]]]. left. eexists. split; [reflexivity|]. exists x, y. auto.
  - intros [[ctx [-> [x [y [I [A [B ->]]]]]]]|[]]. exists (x, y). auto.
Qed.
Lemma overridden : follows (check_overridden n p req) (rules_overridden E n p).
Proof.
  eapply does_to; [unfold check_overridden; walk|]. open_table. split.
  - intros [[x y] [I [[A B] ->]]]. left. eexists. split; [reflexivity|]. exists x, y. auto.
  - intros [[ctx [-> [x [y [I [A [B ->]]]]]]]|[]]. exists (x, y). auto.
Qed.
Lemma vary_host : follows (check_vary_host n p req) (rules_vary_host E n p).
Proof. eapply does_to; [unfold check_vary_host; walk|]. table'. Qed.
Lemma challenge_missing : follows (check_challenge_missing n p req) (rules_challenge_missing n p).
Proof. eapply does_to; [unfold check_challenge_missing; walk|]. table'. Qed.
Lemma proxy_challenge_missing : follows (check_proxy_challenge_missing n p req) (rules_proxy_challenge_missing n p).
Proof. eapply does_to; [unfold check_proxy_challenge_missing; walk|]. table'. Qed.
Lemma no_body_status : follows (check_no_body_status n p req) (rules_no_body_status n p).
Proof. eapply does_to; [unfold check_no_body_status; walk|]. table'. Qed.
Lemma informational_close : follows (check_informational_close n p req) (rules_informational_close E n p).
Proof. eapply does_to; [unfold check_informational_close; walk|]. table'. Qed.
Lemma informational_metadata : follows (check_informational_metadata n p req) (rules_informational_metadata n p).
Proof. eapply does_to; [unfold check_informational_metadata; walk|]. table'. Qed.
Lemma location_useless : follows (check_location_useless n p req) (rules_location_useless n p).
Proof. eapply does_to; [unfold check_location_useless; walk|]. table'. Qed.
Lemma retry_after : follows (check_retry_after n p req) (rules_retry_after n p).
Proof. eapply does_to; [unfold check_retry_after; walk|]. table'. Qed.
Lemma content_range : follows (check_content_range n p req) (rules_content_range n p).
Proof. eapply does_to; [unfold check_content_range; walk|]. table'. Qed.
Lemma allow : follows (check_allow n p req) (rules_allow E n p).
Proof. eapply does_to; [unfold check_allow; walk|]. table'. Qed.

(** *** Derived properties *)

Lemma late_iff : status_in p [103]%Z = true <-> ~ late p.
Proof. rewrite status_in_iff. unfold status, late. cbn [In]. lia. Qed.
Definition future : Prop :=
  exists v d a, header_value E m "Date" v /\ time_like v = Some d /\ header_value E m "Age" (VInt a) /\ (e_now E w (s "from_cache") + 30 * micro < d + a * micro)%Z.
Lemma time_readable v d : time_like v = Some d -> readable v.
Proof. intro H. split; [intros ->; discriminate H|intros x ->; discriminate H]. Qed.
Lemma does_date : does E W (from_cache_date n p req) (fun e => future /\ e = Said w 1241 []) (fun b => b = true <-> future).
Proof.
  unfold from_cache_date. eapply does_choose; [test| |].
  - intros [D A]. eapply does_any; [gets|]. intros v V. cbv beta. eapply does_any; [gets|]. intros d Q. eapply does_any; [gets|]. intros a K. eapply does_any; [gets|]. intros z Z.
    eapply does_any; [gets|]. intros now ->.
    assert (F : future <-> (e_now E w (s "from_cache") + 30 * micro < d + z * micro)%Z).
    { destruct a; try discriminate Z. injection Z as ->. split.
      - intros [v' [d' [a' [V' [Q' [A' L]]]]]]. assert (v = v') by exact (header_value_unique V V'). assert (VInt z = VInt a') by exact (header_value_unique K A'). congruence.
      - intro L. exists v, d, z. auto. }
    destruct (last_moment <? d + z * micro)%Z; [apply does_raise|]. destruct (e_now E w (s "from_cache") + 30 * micro <? d + z * micro)%Z eqn:L.
    + assert future by (apply F; lia). apply does_said; [|tauto]. intro e. tauto.
    + assert (~ future) by (rewrite F; lia). apply does_none; [tauto|]. split; [discriminate|tauto].
  - intro N. assert (K : ~ future).
    { intros [v [d [a [V [Q [A L]]]]]]. apply N. split; [exists v; split; [exact V|exact (time_readable Q)]|exists (VInt a); split; [exact A|split; [discriminate|intros x X; discriminate X]]]. }
    apply does_none; [tauto|]. split; [discriminate|tauto].
Qed.
Definition first_code (l : list val) (code : val) : Prop :=
  exists a x b, l = a ++ x :: b /\ part "code" x code /\ code_in 100 199 code /\ forall y c, In y a -> part "code" y c -> ~ code_in 100 199 c.
Lemma first_code_unique l c c' : first_code l c -> first_code l c' -> c = c'.
Proof.
  revert c c'. induction l as [|y l IH]; intros c c' [a [x [b [Q [P [C N]]]]]] [a' [x' [b' [Q' [P' [C' N']]]]]]; [destruct a; discriminate Q|].
  destruct a as [|z a], a' as [|z' a']; cbn [app] in Q, Q'; injection Q as Q0 Q; injection Q' as Q0' Q'.
  - subst x x'. exact (part_unique P P').
  - subst x z'. destruct (N' y c (or_introl eq_refl) P C).
  - subst x' z. destruct (N y c' (or_introl eq_refl) P' C').
  - apply IH; [exists a, x, b|exists a', x', b']; repeat apply conj; auto; intros u d I; [apply (N u)|apply (N' u)]; now right.
Qed.
Lemma does_first_warning l : does E W (first_cache_warning n p req l) (fun e => exists code, first_code l code /\ e = Said w 1169 [(s "code", CVal code)])
  (fun o => says_yes o = true <-> exists code, first_code l code).
Proof.
  induction l as [|x l IH]; cbn [first_cache_warning].
  - assert (K : forall code, ~ first_code [] code) by (intros code [a [x [b [Q _]]]]; destruct a; discriminate Q).
    apply does_none; [intros e [code [F _]]; exact (K code F)|]. split; [discriminate|]. intros [code F]. destruct (K code F).
  - eapply does_any; [gets|]. intros code C. eapply does_choose; [apply tests_code| |].
    + intro I. assert (F : first_code (x :: l) code) by (exists [], x, l; repeat apply conj; auto; intros y c []).
      apply does_said; [|cbn; split; eauto]. intro e. split; [intros [code' [F' ->]]; now rewrite (first_code_unique F F')|]. intros ->. eauto.
    + intro N. assert (K : forall c, first_code l c <-> first_code (x :: l) c).
      { intro c. split; intros [a [y [b [Q [P [I F]]]]]].
        - exists (x :: a), y, b. subst l. repeat apply conj; auto. intros z c' [<-|J] P'; [rewrite (part_unique P' C); exact N|exact (F z c' J P')].
        - destruct a as [|z a]; cbn [app] in Q; injection Q as -> ->; [rewrite (part_unique P C) in I; destruct (N I)|].
          exists a, y, b. repeat apply conj; auto. intros z' c' J. apply F. now right. }
      eapply does_conv; [exact IH| |].
      * intro e. split; intros [c [F ->]]; exists c; split; auto; now apply K.
      * intros o H. rewrite H. split; intros [c F]; exists c; now apply K.
Qed.
Lemma from_warning_iff l code : listed E m "Warning" l -> late p -> ~ from_future E n p -> lacks m "Age" -> (from_warning E n p code <-> first_code l code).
Proof.
  intros L T N A. unfold from_warning. split.
  - intros [_ [_ [_ [a [x [b [L' H]]]]]]]. exists a, x, b. split; [exact (listed_unique L L')|exact H].
  - intros [a [x [b [-> H]]]]. repeat apply conj; auto. exists a, x, b. auto.
Qed.
Lemma does_from_cache : does E W (from_cache n p req) (due (rules_from_cache E n p)) (fun o => says_yes o = true <-> cached E n p).
Proof.
  unfold from_cache. destruct (status_in p [103]%Z) eqn:S.
  - assert (N : ~ late p) by (apply late_iff; exact S).
    apply does_none; [|split; [discriminate|intros [[H _]|[c [H _]]]; destruct (N H)]].
    intros e. unfold rules_from_cache. cbn [due]. unfold due_by, plain. cbn [r_due]. intros [[ctx [_ [_ [H _]]]]|[[ctx [_ [_ [H _]]]]|[[ctx [_ [c [[H _] _]]]]|[]]]]; destruct (N H).
  - assert (T : late p) by (destruct (Z.eq_dec st 103); [exfalso; assert (K : status_in p [103]%Z = true) by (apply status_in_iff; left; auto); congruence|assumption]).
    assert (FF : from_future E n p <-> future) by (unfold from_future, future; tauto).
    eapply does_to.
    + eapply does_ifM with (R := fun o => says_yes o = true <-> cached E n p) (Da := nothing); [exact does_date| |].
      * intro F. apply does_ret. split; [discriminate|]. intros [[_ [N _]]|[c [_ [N _]]]]; tauto.
      * intro N. apply does_choose with (P := has m "Age") (D := fun e => (from_age E n p /\ e = Said w 1168 []) \/ exists c, from_warning E n p c /\ e = Said w 1169 [(s "code", CVal c)]);
          [eapply tests_present; exact http| |].
        -- intro A. assert (FA : from_age E n p) by (unfold from_age; tauto).
           apply does_said; [|split; [intros _; now left|reflexivity]]. intro e. cbn [j_who of_response]. split; [|auto]. intros [[_ H]|[c [[_ [_ [H _]]] _]]]; [exact H|destruct (H A)].
        -- intro A. eapply does_any; [eapply does_items; [exact http|reflexivity]|]. intros l L.
           assert (K : forall c, from_warning E n p c <-> first_code l c) by (intro c; apply from_warning_iff; auto; tauto).
           eapply does_conv; [exact (does_first_warning l)| |].
           ++ intro e. split; [intros [c [F ->]]; right; exists c; split; [now apply K|reflexivity]|]. intros [[[_ [_ H]] _]|[c [F ->]]]; [destruct (A H)|]. exists c. split; [now apply K|reflexivity].
           ++ intros o H. rewrite H. unfold cached. split; [intros [c F]; right; exists c; now apply K|]. intros [[_ [_ B]]|[c F]]; [destruct (A B)|]. exists c. now apply K.
    + intro e. unfold rules_from_cache, nothing. cbn [due]. unfold due_by, plain. cbn [r_who r_id r_due]. split.
      * intros [[F ->]|[[_ []]|[N [[F ->]|[c [F ->]]]]]]; [left; exists []; tauto|right; left; exists []; auto|right; right; left]. eexists. split; [reflexivity|eauto].
      * intros [[ctx [-> [-> F]]]|[[ctx [-> [-> F]]]|[[ctx [-> [c [F ->]]]]|[]]]]; [left; tauto|right; right|right; right].
        -- split; [destruct F as [_ [F _]]; tauto|left; auto].
        -- split; [destruct F as [_ [F _]]; tauto|right; eauto].
Qed.

Section Sides.
Hypothesis side_cache : forall e, due (rules_from_cache E n p) e -> W e.
Lemma gets_from_cache : returns E W (from_cache n p req) (fun o => says_yes o = true <-> cached E n p).
Proof. exact (does_side does_from_cache side_cache). Qed.
Lemma does_heuristic : does E W (heuristic_expiration n p req) (due (rules_heuristic E n p)) (fun o => says_yes o = true <-> heuristic E n p).
Proof.
  assert (D : forall e, due (rules_heuristic E n p) e <-> (by_113 E n p /\ e = Said w 1179 []) \/ (by_nothing E n p /\ e = Said w 1178 [])).
  { intro e. unfold rules_heuristic. cbn [due]. unfold due_by, plain. cbn [r_who r_id r_due]. split.
    - intros [[ctx [-> [-> H]]]|[[ctx [-> [-> H]]]|[]]]; auto.
    - intros [[H ->]|[H ->]]; [left|right; left]; exists []; auto. }
  unfold heuristic_expiration. eapply does_any; [exact gets_from_cache|]. intros c C. cbv beta in C. unfold heuristic. destruct (says_yes c) eqn:Y.
  - assert (K : cached E n p) by (apply C; reflexivity). clear C. eapply does_choose; [test| |].
    + intro T. assert (H : by_113 E n p) by (split; auto). apply does_said; [|split; [auto|reflexivity]]. intro e. rewrite D. split; [|auto]. intros [[_ Q]|[[_ [N _]] _]]; [exact Q|destruct (N T)].
    + intro T. assert (NO : ~ by_nothing E n p -> (forall e, ~ due (rules_heuristic E n p) e) /\ (false = true <-> by_113 E n p \/ by_nothing E n p)).
      { intro N. split; [intros e H; apply D in H|]; unfold by_113 in *; [tauto|]. split; [discriminate|]. tauto. }
      eapply does_choose; [test| |].
      { intro X. assert (N : ~ by_nothing E n p) by (intros [_ [_ [B _]]]; exact (B X)). apply does_none; apply (NO N). }
      intro X. eapply does_choose; [test| |].
      { intro Z. assert (N : ~ by_nothing E n p) by (intros [_ [_ [_ [B _]]]]; exact (B Z)). apply does_none; apply (NO N). }
      intro Z. eapply does_choose; [test| |]; intro A.
      * assert (H : by_nothing E n p) by (unfold by_nothing; auto). apply does_said; [|split; [auto|reflexivity]]. intro e. rewrite D. split; [|auto]. intros [[[_ B] _]|[_ Q]]; [destruct (T B)|exact Q].
      * assert (N : ~ by_nothing E n p) by (intros [_ [_ [_ [_ B]]]]; exact (A B)). apply does_none; apply (NO N).
  - assert (K : ~ cached E n p) by (intro K; apply C in K; discriminate K). apply does_none.
    + intros e H. apply D in H. destruct H as [[[H _] _]|[[H _] _]]; exact (K H).
    + rewrite Y. split; [discriminate|]. intros [[H _]|[H _]]; destruct (K H).
Qed.
End Sides.

Lemma does_lifetime : returns E W (lifetime n p req) (fun v => exists e d x y, header_value E m "Expires" e /\ header_value E m "Date" d /\ time_like e = Some x /\ time_like d = Some y /\ v = VInt ((x - y) / micro)).
Proof.
  unfold lifetime. eapply returns_bind; [gets|]. intros e V. eapply returns_bind; [gets|]. intros d V'. eapply returns_bind; [gets|]. intros x X. eapply returns_bind; [gets|]. intros y Y.
  apply does_ret. exists e, d, x, y. auto.
Qed.
Lemma stale_table e : due (rules_stale E n p) e <->
  (exists code, stale_warning E p code /\ e = Said w 1183 [(s "code", CVal (warn code))]) \/ (stale_max_age E p /\ e = Said w 1184 []) \/ (stale_expires E p /\ e = Said w 1185 []).
Proof.
  unfold rules_stale. cbn [due]. unfold due_by, plain. cbn [r_who r_id r_due]. split.
  - intros [[ctx [-> [c [H ->]]]]|[[ctx [-> [-> H]]]|[[ctx [-> [-> H]]]|[]]]]; eauto.
  - intros [[c [H ->]]|[[H ->]|[H ->]]]; [left|right; left|right; right; left]; eexists; split; try reflexivity; eauto.
Qed.
Lemma max_age_apart : stale_max_age E p -> stale_expires E p -> False.
Proof.
  intros [_ [_ [v [V A]]]] [_ [_ [M _]]]. rewrite (directive_unique V M) in A. destruct A as [u [o [_ [_ [[A _] _]]]]]. now apply A.
Qed.
Lemma does_stale : does E W (stale n p req) (due (rules_stale E n p)) (fun o => says_yes o = true <-> is_stale E p).
Proof.
  unfold stale, cc. destruct (status_in p [103]%Z) eqn:S.
  { assert (N : ~ late p) by (apply late_iff; exact S). apply does_none.
    - intros e H. apply stale_table in H. destruct H as [[c [[H _] _]]|[[[[H _] _] _]|[[[H _] _] _]]]; exact (N H).
    - split; [discriminate|]. intros [[c [H _]]|[[[H _] _]|[[H _] _]]]; destruct (N H). }
  assert (T : late p) by (destruct (Z.eq_dec st 103); [exfalso; assert (K : status_in p [103]%Z = true) by (apply status_in_iff; left; auto); congruence|assumption]).
  unfold stale_by_warning. eapply does_choose; [test| |].
  { intro A. assert (H : stale_warning E p "110") by (unfold stale_warning; auto). apply does_said; [|split; [intros _; left; eauto|reflexivity]].
    intro e. rewrite stale_table. split; [|intros ->; left; eauto]. intros [[c [[_ [_ [->|[_ N]]]] ->]]|[[[[_ [N _]] _] _]|[[[_ [N _]] _] _]]]; [reflexivity|destruct (N A)..]. }
  intro A. eapply does_choose; [test| |].
  { intro B. assert (H : stale_warning E p "111") by (unfold stale_warning; auto). apply does_said; [|split; [intros _; left; eauto|reflexivity]].
    intro e. rewrite stale_table. split; [|intros ->; left; eauto]. intros [[c [[_ [C [->|[-> _]]]] ->]]|[[[[_ [_ N]] _] _]|[[[_ [_ N]] _] _]]]; [destruct (A C)|reflexivity|destruct (N B)..]. }
  intro B. assert (U : unwarned E p) by (unfold unwarned; auto).
  assert (NW : forall c, ~ stale_warning E p c) by (intros c [_ [C [->|[-> _]]]]; [exact (A C)|exact (B C)]).
  assert (NO : ~ stale_max_age E p -> ~ stale_expires E p -> (forall e, ~ due (rules_stale E n p) e) /\ (false = true <-> is_stale E p)).
  { intros N N'. split; [intros e H; apply stale_table in H; destruct H as [[c [H _]]|[[H _]|[H _]]]; [exact (NW c H)|tauto|tauto]|].
    split; [discriminate|]. intros [[c H]|[H|H]]; [destruct (NW c H)|tauto|tauto]. }
  eapply does_choose; [test| |]; intro SM.
  2: { apply does_none; apply NO; intros [_ [H _]]; exact (SM H). }
  eapply does_choose.
  { eapply tests_get; [gets|unique|intros v V; cbv beta; test]. }
  - intro H. assert (K : stale_max_age E p) by (unfold stale_max_age; cbn [j_msg of_response] in H; auto). apply does_said; [|split; [intros _; right; left; exact K|reflexivity]].
    intro e. rewrite stale_table. split; [|auto]. intros [[c [C _]]|[[_ Q]|[C _]]]; [destruct (NW c C)|exact Q|destruct (max_age_apart K C)].
  - intro N. assert (N' : ~ stale_max_age E p) by (intros [_ [_ H]]; exact (N H)).
    eapply does_choose.
    { repeat (eapply tests_and; [test|intro]). eapply tests_get; [exact does_lifetime| |intros v V; cbv beta; test].
      intros u u' [e [d [x [y [V [V' [X [Y ->]]]]]]]] [e' [d' [x' [y' [Z [Z' [X' [Y' ->]]]]]]]]. pose proof (header_value_unique V Z). pose proof (header_value_unique V' Z'). congruence. }
    + intro H. assert (K : stale_expires E p).
      { destruct H as [M [_ [_ [v [[e [d [x [y [V [V' [X [Y ->]]]]]]]] H]]]]]. unfold stale_expires. repeat apply conj; auto. exists e, d, x, y. auto. }
      apply does_said; [|split; [intros _; right; right; exact K|reflexivity]]. intro e. rewrite stale_table. split; [|auto]. intros [[c [C _]]|[[C _]|[_ Q]]]; [destruct (NW c C)|destruct (N' C)|exact Q].
    + intro X. apply does_none; apply (NO N'); intros [_ [_ [M [e [d [x [y [V [V' [Q [Q' H]]]]]]]]]]]; apply X; (split; [exact M|]);
        (split; [exists e; split; [exact V|exact (time_readable Q)]|]); (split; [exists d; split; [exact V'|exact (time_readable Q')]|]); eexists; (split; [|exact H]); exists e, d, x, y; auto.
Qed.
Lemma does_until_close : does E W (delimited_by_close n p req) (due (rules_until_close E n p req)) (fun o => says_yes o = true <-> until_close E p req).
Proof.
  assert (D : forall e, due (rules_until_close E n p req) e <-> until_close E p req /\ e = Said w 1025 []).
  { intro e. unfold rules_until_close. cbn [due]. unfold due_by, plain. cbn [r_who r_id r_due]. split; [intros [[ctx [-> [-> H]]]|[]]; auto|]. intros [H ->]. left. exists []. auto. }
  assert (NO : forall o, says_yes o = false -> ~ until_close E p req -> does E W (ret o) (due (rules_until_close E n p req)) (fun o => says_yes o = true <-> until_close E p req)).
  { intros o O N. apply does_none; [intros e H; apply D in H; tauto|]. rewrite O. split; [discriminate|tauto]. }
  unfold delimited_by_close. eapply does_choose; [test| |]; cbn [j_msg of_response].
  - intro H. apply NO; [reflexivity|]. intros [L [C [I [S [q [_ [_ [_ V]]]]]]]]. destruct H as [H|[H|[H|[H|[v [Q [k [K Z]]]]]]]]; [exact (L H)|exact (C H)|exact (I H)|exact (S H)|].
    destruct V as [v' [Q' V]]. rewrite Q in Q'. injection Q' as <-. refine (@apart_ones v ["HTTP/2"] ["HTTP/1.0"; "HTTP/1.1"] _ _ V); [reflexivity|]. exists k. auto.
  - intro N. assert (N1 : ~ has m "Content-Length") by tauto. assert (N2 : ~ mentions E m "Transfer-Encoding" (const "TransferCoding" "chunked")) by tauto.
    assert (N3 : ~ class p 1) by tauto. assert (N4 : ~ status p [204; 304]%Z) by tauto. clear N. destruct req as [q|] eqn:RQ; [|apply NO; [reflexivity|]; intros [_ [_ [_ [_ [q [Q _]]]]]]; discriminate Q].
    assert (U : until_close E p (Some q) <-> ~ method_is q ["HEAD"] /\ ~ (method_is q ["CONNECT"] /\ class p 2) /\ version m ["HTTP/1.0"; "HTTP/1.1"]).
    { unfold until_close. split; [intros [_ [_ [_ [_ [q' [Q H]]]]]]; injection Q as <-; exact H|]. intro H. repeat apply conj; auto. eauto. }
    destruct (one_of_strs (q_method q) ["HEAD"]) eqn:H1; [apply one_of_strs_iff in H1; apply NO; [reflexivity|]; rewrite U; intros [N _]; exact (N H1)|].
    destruct (one_of_strs (q_method q) ["CONNECT"] && successful st) eqn:H2.
    { apply andb_true_iff in H2. destruct H2 as [A B]. apply one_of_strs_iff in A. apply successful_iff in B. apply NO; [reflexivity|]. rewrite U. intros [_ [N _]]. apply N. split; assumption. }
    destruct (version_in (m_version m) ["HTTP/1.0"; "HTTP/1.1"]) eqn:H3.
    + apply version_iff in H3. assert (K : until_close E p (Some q)).
      { apply U. repeat apply conj; [intro K; apply one_of_strs_iff in K; congruence| |exact H3]. intros [A B]. apply one_of_strs_iff in A. apply successful_iff in B. rewrite A, B in H2. discriminate H2. }
      apply does_said; [|split; [auto|reflexivity]]. intro e. rewrite D. tauto.
    + apply NO; [reflexivity|]. rewrite U. intros [_ [_ V]]. apply version_iff in V. congruence.
Qed.

(** *** The other checks *)

Lemma does_yes c D P : does E W c D (fun o => says_yes o = true <-> P) -> does E W (yesM c) D (fun b => b = true <-> P).
Proof.
  intros [S C]. unfold yesM, does, bind. destruct (c E) as [es [v|x]] eqn:M; cbn [fst snd ret] in *.
  - destruct (C v eq_refl) as [Rv T]. rewrite app_nil_r. split; [exact S|]. intros u U. injection U as <-. auto.
  - split; [exact S|]. intros u U. discriminate U.
Qed.
Tactic Notation "too" reference(t) := intro; unfold nothing, t; repeat rewrite due_app;
  cbn [due app]; unfold due_by, plain, about; cbn [r_who r_id r_due j_msg j_who j_status j_request of_request of_response] in *; split; intro; table_one.
Lemma close_option : follows (check_close_option n p req) (rules_close_option E n p req).
Proof.
  eapply does_to.
  - unfold check_close_option. eapply does_when_too; [|intro; walk].
    refine (does_and (D' := nothing) (Q := version m ["HTTP/1.1"] /\ ~ mentions E m "Connection" (VStr (s "close"))) (does_yes does_until_close) _). intro.
    apply tests_and; [apply tests_pure; meaning|intro; apply tests_not; eapply tests_has_item; [exact http|reflexivity]].
  - too rules_close_option.
Qed.
Lemma cached_follows : follows (check_from_cache n p req) (rules_cached E n p).
Proof.
  eapply does_to.
  - unfold check_from_cache. eapply does_when_too; [exact (does_yes does_from_cache)|]. intro. walk.
  - too rules_cached.
Qed.
Lemma served_stale : follows (check_stale n p req) (rules_served_stale E n p).
Proof.
  eapply does_to.
  - unfold check_stale. eapply does_when_too; [exact (does_yes does_stale)|]. intro. walk.
  - too rules_served_stale.
Qed.
Hypothesis side_cache : forall e, due (rules_from_cache E n p) e -> W e.
Lemma expired : follows (check_heuristic n p req) (rules_expired E n p).
Proof.
  eapply does_to.
  - unfold check_heuristic. eapply does_when_too; [exact (does_yes (does_heuristic side_cache))|]. intro. walk. eapply tests_present; exact http.
  - too rules_expired.
Qed.
Hypothesis side_close : forall e, due (rules_until_close E n p req) e -> W e.
Lemma tests_until_close : tests E W (yesM (delimited_by_close n p req)) (until_close E p req).
Proof. exact (does_side (does_yes does_until_close) side_close). Qed.
Hypothesis side_proxy : forall e, due (rules_by_proxy E j) e -> W e.
Lemma tests_transformed : tests E W (transformed_by_proxy j) (transformed E j).
Proof. exact (does_side (@does_transformed E W http j) side_proxy). Qed.
Lemma request_tls_is : request_tls req = scheme_tls (request_scheme req).
Proof. now destruct req. Qed.
Ltac known_test ::=
  lazymatch goal with
  | |- tests _ _ (cc_true _ _ _ _) _ => apply tests_cc_true
  | |- tests _ _ (cc_none _ _ _ _) _ => apply tests_cc_none
  | |- tests _ _ (cc_bare _ _ _ _) _ => apply tests_cc_bare
  | |- tests _ _ (code_between _ _ _) _ => apply tests_code
  | |- tests _ _ (yesM (delimited_by_close _ _ _)) _ => exact tests_until_close
  | |- tests _ _ (transformed_by_proxy _) _ => exact tests_transformed
  end.
Lemma immutable : follows (check_immutable n p req) (rules_immutable E n p req).
Proof. eapply does_to; [unfold check_immutable; rewrite request_tls_is; walk|]. table'. Qed.
Lemma via_missing : follows (check_via_missing n p req) (rules_via_missing E n p req).
Proof. eapply does_to; [unfold check_via_missing; walk|]. table'. Qed.
Lemma nonempty_iff x : nonempty x = true <-> x <> [].
Proof. destruct x; cbn; split; congruence. Qed.
Lemma created_fragment : follows (check_created_fragment n p req) (rules_created_fragment E n p).
Proof.
  eapply does_to; [unfold check_created_fragment; walk|]. open_table. unfold okay. cbn [j_msg j_who of_response]. split.
  - intros [[S [[v [V R]] [v' [V' [u [-> [x [X N]]]]]]]] ->]. rewrite (header_value_unique V' V) in X. left. exists []. repeat apply conj; try reflexivity; [exact S|]. exists v, x. apply nonempty_iff in N. auto.
  - intros [[ctx [-> [-> [S [v [u [V [R [U N]]]]]]]]]|[]]. split; [|reflexivity]. split; [exact S|]. split; [eauto|]. exists v. split; [exact V|]. exists (e_url E). split; [reflexivity|].
    exists u. split; [exact U|now apply nonempty_iff].
Qed.
Lemma reason : follows (check_reason n p req) (rules_reason E n p).
Proof.
  unfold check_reason. destruct (p_reason p) as [r|] eqn:R.
  - eapply does_to; [eapply does_after with (D' := nothing); [apply does_parse; [exact http|apply (proj1 (forallb_forall _ _) silent_ok); cbn [In]; tauto]|apply does_ret; exact Logic.I]|].
    open_table. rewrite R. split.
    + intros [[N ->]|[]]. left. eexists. split; [reflexivity|]. split; [reflexivity|]. eauto.
    + intros [[ctx [-> [-> [r' [Q N]]]]]|[]]. injection Q as <-. auto.
  - apply does_none; [|exact Logic.I]. intros e. unfold rules_reason. cbn [due]. unfold due_by, about. cbn [r_due]. rewrite R. intros [[ctx [_ [_ [r [Q _]]]]]|[]]. discriminate Q.
Qed.
Hypothesis side_codings : forall e, due (rules_codings E j) e -> W e.
Hypothesis side_multipart : forall e, due (rules_multipart E j) e -> W e.
Definition part_event (e : event) : Prop :=
  exists i a b, body_part E n p req i a b /\
    ((a = false /\ e = Said w 1141 [(s "part_num", CVal (VInt (Z.of_nat (i + 1))))]) \/ (b = false /\ e = Said w 1142 [(s "part_num", CVal (VInt (Z.of_nat (i + 1))))])).
Lemma byteranges_event : reports E W (check_byteranges n p req) part_event.
Proof.
  unfold check_byteranges. eapply does_any; [exact (does_side (@multipart_follows E W http j side_codings) side_multipart)|]. intros o O. unfold multipart_parts in O. destruct o as [ps|].
  - assert (K : forall i a b, body_part E n p req i a b <-> nth_error ps i = Some (a, b)).
    { intros i a b. unfold body_part. split.
      - intros [r [ps' [M [P N]]]]. assert (Q : Some ps = Some ps') by (apply O; eauto). injection Q as ->. exact N.
      - intro N. destruct (proj1 (O ps) eq_refl) as [r [M P]]. eauto. }
    eapply does_to; [walk|]. intro e. unfold part_event. cbn [j_who of_response]. split.
    + intros [[i [a b]] [I H]]. apply nth_number in I. destruct I as [k [-> N]]. cbn [fst snd] in H. exists k, a, b. split; [now apply K|]. replace (k + 1) with (1 + k) by lia.
      destruct H as [[A ->]|[B ->]]; [left|right]; split; auto; now apply not_true_is_false.
    + intros [i [a [b [B H]]]]. apply K in B. exists (1 + i, (a, b)). split; [apply nth_number; eauto|]. cbn [fst snd]. replace (i + 1) with (1 + i) in H by lia.
      destruct H as [[-> ->]|[-> ->]]; [left|right]; (split; [discriminate|reflexivity]).
  - apply does_none; [|exact Logic.I]. intros e [i [a [b [[r [ps [M [P N]]]] _]]]]. assert (Q : None = Some ps) by (apply O; eauto). discriminate Q.
Qed.
Lemma partial_content : follows (check_partial_content n p req) (rules_partial_content E n p req).
Proof.
  eapply does_to.
  - unfold check_partial_content. eapply does_if; [meaning| |intro; walk]. intro. eapply does_ifM; [eapply tests_equal; [exact http|const_okay]| |]; intro; [|walk].
    eapply does_then; [exact byteranges_event|walk].
  - open_table. unfold part_event, byteranges. cbn [j_msg j_who of_response]. split; intro; table_one. right. right. right. left. exists []. tauto.
Qed.
Lemma veq_any l c : existsb (fun v => veq v c) l = true <-> exists v, In v l /\ veq v c = true.
Proof. apply existsb_exists. Qed.
Lemma tests_blocked x : tests E W (is_blocked_by x) (blocked_by x).
Proof.
  unfold is_blocked_by. eapply does_any; [gets|]. intros ps P. eapply does_any; [gets|]. intros rel [d [D G]].
  destruct rel; try apply does_raise. apply does_ret. rewrite veq_any. unfold blocked_by. split.
  - intros [v [I V]]. exists ps, d, l, v. auto.
  - intros [ps' [d' [l' [v [P' [D' [G' [I V]]]]]]]]. rewrite <- (part_unique P P') in D'. rewrite <- (params_unique D D') in G'. rewrite G in G'. injection G' as ->. eauto.
Qed.
Lemma blocked_by_follows : follows (check_blocked_by n p req) (rules_blocked_by E n p).
Proof.
  eapply does_to; [unfold check_blocked_by; eapply does_when; [|intro; walk]|].
  - apply tests_and; [test|]. intro. apply tests_not. eapply tests_any_item; [exact http|reflexivity|]. intros x _. apply tests_blocked.
  - table'.
Qed.

(** *** Content-Disposition *)

Lemma is_hex_iff c : is_hex c = true <-> hex_digit c.
Proof. unfold is_hex, is_digit, hex_digit. lia. Qed.
Lemma percent_iff x : contains_percent_encodes x = true <-> percent_encoded x.
Proof.
  assert (Z : forall c x, percent_encoded x -> percent_encoded (c :: x)) by (intros c y [a [d [e [b [-> H]]]]]; exists (c :: a), d, e, b; auto).
  induction x as [|c x IH]; [split; [discriminate|intros [a [d [e [b [Q _]]]]]; destruct a; discriminate Q]|].
  assert (K : percent_encoded (c :: x) <-> (c = 37%N /\ exists d e b, x = d :: e :: b /\ hex_digit d /\ hex_digit e) \/ percent_encoded x).
  { split.
    - intros [a [d [e [b [Q H]]]]]. destruct a as [|c' a]; cbn [app] in Q; injection Q as -> ->; [left; split; [reflexivity|]; exists d, e, b; auto|right; exists a, d, e, b; auto].
    - intros [[-> [d [e [b [-> H]]]]]|H]; [exists [], d, e, b; auto|now apply Z]. }
  rewrite K, <- IH. destruct (N.eq_dec c 37) as [->|N].
  - destruct x as [|d [|e b]].
    + cbn. split; [discriminate|]. intros [[_ [d [e [b [Q _]]]]]|Q]; discriminate Q.
    + change (contains_percent_encodes [37%N; d]) with (contains_percent_encodes [d]). split; [auto|]. intros [[_ [d' [e [b [Q _]]]]]|Q]; [discriminate Q|exact Q].
    + change (contains_percent_encodes (37%N :: d :: e :: b)) with ((is_hex d && is_hex e) || contains_percent_encodes (d :: e :: b)). rewrite orb_true_iff, andb_true_iff, !is_hex_iff. split.
      * intros [H|H]; [left; split; [reflexivity|]; exists d, e, b; auto|auto].
      * intros [[_ [d' [e' [b' [Q H]]]]]|H]; [injection Q as <- <- <-; auto|auto].
  - assert (Q : contains_percent_encodes (c :: x) = contains_percent_encodes x).
    { destruct c as [|c]; [reflexivity|]. destruct c as [c|c|]; try reflexivity. destruct c as [c|c|]; try reflexivity. destruct c as [c|c|]; try reflexivity.
      destruct c as [c|c|]; try reflexivity. destruct c as [c|c|]; try reflexivity. destruct c as [c|c|]; try reflexivity. destruct (N eq_refl). }
    rewrite Q. tauto.
Qed.
Lemma is_ascii_iff x : negb (is_ascii x) = true <-> exists c, In c x /\ (128 <= c)%N.
Proof.
  rewrite negb_true_iff. unfold is_ascii. split.
  - intro H. apply not_forallb in H. destruct H as [c [I H]]. exists c. split; [exact I|lia].
  - intros [c [I H]]. destruct (forallb _ x) eqn:F; [|reflexivity]. rewrite forallb_forall in F. specialize (F c I). lia.
Qed.
Lemma in_text c x : existsb (N.eqb c) x = true <-> In c x.
Proof. rewrite existsb_exists. split; [intros [d [I H]]; apply N.eqb_eq in H; now subst|]. intro I. exists c. split; [exact I|apply N.eqb_refl]. Qed.
Definition filename_event (x : str) (e : event) : Prop :=
  (percent_encoded x /\ e = Said w 1248 []) \/ ((In 34%N x \/ In 92%N x) /\ e = Said w 1249 []) \/ ((exists c, In c x /\ (128 <= c)%N) /\ e = Said w 1250 []).
Lemma does_filename v : reports E W (check_filename n p req v) (fun e => exists x, text_is v x /\ filename_event x e).
Proof.
  unfold check_filename. assert (K : forall x, text_is v x -> reports E W (when (pure (contains_percent_encodes x)) (say (of_response n p req) 1248 []) ;;;
      when (pure (existsb (N.eqb 34) x || existsb (N.eqb 92) x)) (say (of_response n p req) 1249 []) ;;;
      when (pure (negb (is_ascii x))) (say (of_response n p req) 1250 [])) (fun e => exists x, text_is v x /\ filename_event x e)).
  { intros x X. eapply does_to.
    - eapply does_then; [eapply does_when; [apply tests_pure, percent_iff|intro; walk]|]. eapply does_then; [eapply does_when; [apply tests_pure, or_iff; apply in_text|intro; walk]|].
      eapply does_when; [apply tests_pure, is_ascii_iff|intro; walk].
    - intro e. cbn [j_who of_response]. unfold filename_event. split; [intro H; exists x; tauto|]. intros [x' [X' H]]. rewrite (text_is_unique X' X) in H. tauto. }
  destruct (str_like v) as [[x|x]|] eqn:S; [apply K; now left|apply K; now right|apply does_raise].
Qed.
Lemma disposition_follows : follows (check_disposition n p req) (rules_disposition E n p).
Proof.
  unfold RulesBase.follows. assert (T : forall e, due (rules_disposition E n p) e <->
    (exists d k, disposition E p d /\ In k (dup_keys veq d) /\ e = Said w 1247 [(s "param", CVal k)]) \/
    (exists x, filename E p x /\ filename_event x e) \/
    ((disposed E p "filename" VNone /\ exists v, disposed E p "filename*" v /\ v <> VNone) /\ e = Said w 1251 []) \/
    ((exists d v v' a b, disposition E p d /\ disposed E p "filename" v /\ v <> VNone /\ disposed E p "filename*" v' /\ v' <> VNone /\
       index veq d (VStr (s "filename*")) = Some a /\ index veq d (VStr (s "filename")) = Some b /\ a < b) /\ e = Said w 1252 [])).
  { intro e. unfold rules_disposition. cbn [due]. unfold due_by, plain, filename_event. cbn [r_who r_id r_due]. split.
    - intros [[ctx [-> [d [k [D [I ->]]]]]]|[[ctx [-> [-> [x [F H]]]]]|[[ctx [-> [-> [x [F H]]]]]|[[ctx [-> [-> [x [c [F [I H]]]]]]]|[[ctx [-> [-> H]]]|[[ctx [-> [-> H]]]|[]]]]]]].
      + left. exists d, k. auto.
      + right. left. exists x. auto.
      + right. left. exists x. auto.
      + right. left. exists x. split; [exact F|]. right. right. eauto.
      + right. right. left. auto.
      + right. right. right. auto.
    - intros [[d [k [D [I ->]]]]|[[x [F [[H ->]|[[H ->]|[[c [I H]] ->]]]]]|[[H ->]|[H ->]]]].
      + left. eexists. split; [reflexivity|]. exists d, k. auto.
      + right. left. exists []. eauto.
      + right. right. left. exists []. eauto.
      + right. right. right. left. exists []. repeat apply conj; try reflexivity. exists x, c. auto.
      + right. right. right. right. left. exists []. auto.
      + right. right. right. right. right. left. exists []. auto. }
  unfold check_disposition. unfold when. eapply does_choose; [eapply tests_okay; exact http| |].
  2: { intro N. apply does_none; [|exact Logic.I]. intros e H. apply T in H. cbn [j_msg of_response] in N.
       destruct H as [[d [k [[D _] _]]]|[[x [[v [[d [[D _] _]] _]] _]]|[[[[d [[D _] _]] _] _]|[[d [v [v' [a [b [[D _] _]]]]]] _]]]]; exact (N D). }
  intro OK. cbn [j_msg of_response] in OK. eapply does_any; [gets|]. intros ps PS. cbv beta in PS. cbn [j_msg of_response] in PS. eapply does_any; [gets|]. intros d D.
  assert (U : forall d', disposition E p d' <-> d' = d).
  { intro d'. unfold disposition. split; [intros [_ [ps' [PS' D']]]; rewrite (has_part_unique PS' PS) in D'; exact (params_unique D' D)|]. intros ->. split; [exact OK|eauto]. }
  assert (V : forall k v, disposed E p k v <-> Structure.get veq d (VStr (s k)) VNone = Some v).
  { intros k v. unfold disposed. split; [intros [d' [D' G]]; apply U in D'; now subst|]. intro G. exists d. split; [now apply U|exact G]. }
  eapply does_to.
  - eapply does_then; [apply does_each; intros k _; walk|]. eapply does_any with (R := fun v => Structure.get veq d (VStr (s "filename")) VNone = Some v).
    { eapply does_weak; [apply does_dict_get|]. cbv beta. intros v [d' [D' G]]. rewrite (params_unique D' D) in G. exact G. }
    intros v G. apply does_then with (D := fun e => exists x, filename E p x /\ filename_event x e) (D' := fun e =>
      ((disposed E p "filename" VNone /\ exists v, disposed E p "filename*" v /\ v <> VNone) /\ e = Said w 1251 []) \/
      ((exists d v v' a b, disposition E p d /\ disposed E p "filename" v /\ v <> VNone /\ disposed E p "filename*" v' /\ v' <> VNone /\
         index veq d (VStr (s "filename*")) = Some a /\ index veq d (VStr (s "filename")) = Some b /\ a < b) /\ e = Said w 1252 [])).
    + assert (FN : forall x, filename E p x <-> v <> VNone /\ text_is v x).
      { intro x. unfold filename. split; [intros [v' [H N]]; apply V in H; rewrite G in H; injection H as ->; exact N|]. intro H. exists v. split; [now apply V|exact H]. }
      destruct (is_none v) eqn:N; [apply is_none_iff in N; apply does_none; [|exact Logic.I]; intros e [x [F _]]; apply FN in F; tauto|].
      assert (N' : v <> VNone) by (intro Q; apply is_none_iff in Q; congruence).
      eapply does_to; [apply does_filename|]. intro e. split; intros [x [X H]]; exists x; (split; [|exact H]); apply FN; auto.
    + eapply does_any with (R := fun v => Structure.get veq d (VStr (s "filename*")) VNone = Some v).
      { eapply does_weak; [apply does_dict_get|]. cbv beta. intros u [d' [D' G']]. rewrite (params_unique D' D) in G'. exact G'. }
      intros u G'. assert (NN : forall x, is_none x = false <-> x <> VNone) by (intro x; destruct x; cbn; split; congruence).
      destruct (is_none u) eqn:N.
      { apply is_none_iff in N. subst u. apply does_none; [|exact Logic.I]. intros e [[[_ [u [H N]]] _]|[[d' [v1 [v2 [a [b [_ [_ [_ [H [N _]]]]]]]]]] _]]; apply V in H; congruence. }
      apply NN in N. destruct (is_none v) eqn:M.
      { apply is_none_iff in M. subst v. eapply does_to; [apply does_say|]. intro e. cbn [j_who of_response]. split.
        - intros ->. left. split; [|reflexivity]. split; [now apply V|]. exists u. split; [now apply V|exact N].
        - intros [[_ H]|[[d' [v1 [v2 [a [b [_ [H [K _]]]]]]]] _]]; [exact H|]. apply V in H. congruence. }
      apply NN in M. unfold check_filename_order. eapply does_any; [gets|]. intros a A. eapply does_any; [gets|]. intros b B.
      eapply does_to; [eapply does_when; [apply tests_pure; apply Nat.ltb_lt|intro; walk]|]. intro e. cbn [j_who of_response]. split.
      * intros [L ->]. right. split; [|reflexivity]. exists d, v, u, a, b. repeat apply conj; auto; [now apply U|now apply V|now apply V].
      * intros [[[H _] _]|[[d' [v1 [v2 [a' [b' [D' [_ [_ [_ [_ [A' [B' L]]]]]]]]]]]] ->]]; [apply V in H; congruence|]. apply U in D'. subst d'. split; [congruence|reflexivity].
  - intro e. rewrite T. cbn [j_who of_response]. split.
    + intros [[k [I ->]]|H]; [left; exists d, k; split; [now apply U|auto]|right; exact H].
    + intros [[d' [k [D' [I ->]]]]|H]; [left; apply U in D'; subst d'; eauto|right; exact H].
Qed.

(** *** Strict-Transport-Security *)

Lemma members_unique' k l l' : members E m k l -> members E m k l' -> l = l'.
Proof.
  intros [v [V H]] [v' [V' H']]. rewrite (header_value_unique V' V) in H'. destruct H as [->|[x [X ->]]], H' as [Q|[x' [X' ->]]].
  - now injection Q.
  - destruct X' as [X'|X']; discriminate X'.
  - subst v. destruct X as [X|X]; discriminate X.
  - now rewrite (text_is_unique X X').
Qed.
Lemma gets_members k : is_single (s k) = true -> returns E W (items j k) (members E m k).
Proof.
  intro S. unfold items. eapply returns_bind; [apply does_value; exact http|]. intros v V. rewrite S. eapply returns_bind; [apply does_some|]. intros l L. apply does_ret. exists v. split; [exact V|].
  assert (T : match str_like v with Some (Plain x) | Some (CI x) => Some (letters_of x) | None => None end = Some l -> v = VList l \/ exists x, text_is v x /\ l = map (fun c => VStr [c]) x).
  { intro H. right. unfold text_is. destruct (str_like v) as [[x|x]|]; try discriminate H; injection H as <-; exists x; auto. }
  destruct v; try (apply T; exact L). injection L as ->. now left.
Qed.
Lemma gets_sts : returns E W (items j sts) (members E m sts).
Proof. apply gets_members. reflexivity. Qed.
Lemma sts_directive key : returns E W (directive_of j sts key) (fun v => exists l, members E m sts l /\ looked_up key l v).
Proof. unfold directive_of. eapply returns_bind; [exact gets_sts|]. intros l L. eapply does_weak; [apply does_looked|]. intros v V. now exists l. Qed.
Lemma sts_directive_unique key v v' : (exists l, members E m sts l /\ looked_up key l v) -> (exists l, members E m sts l /\ looked_up key l v') -> v = v'.
Proof. intros [l [L V]] [l' [L' V']]. rewrite (members_unique' L' L) in V'. exact (looked_up_unique V V'). Qed.
Lemma sts_without c : tests E W (notM (has_item j sts c)) (exists l, members E m sts l /\ ~ exists x, In x l /\ veq x c = true).
Proof.
  unfold notM, has_item. eapply returns_bind with (R := fun b => exists l, members E m sts l /\ (b = true <-> exists x, In x l /\ veq x c = true)).
  - eapply returns_bind; [exact gets_sts|]. intros l L. apply does_ret. exists l. split; [exact L|apply veq_any].
  - intros b [l [L H]]. apply does_ret. cbv beta. split.
    + intro N. exists l. split; [exact L|]. rewrite <- H. destruct b; [discriminate N|discriminate].
    + intros [l' [L' N]]. rewrite (members_unique' L' L), <- H in N. destruct b; [now elim N|reflexivity].
Qed.
Lemma sts_follows : follows (check_sts n p req) (rules_sts E n p).
Proof.
  eapply does_to.
  - unfold check_sts. eapply does_when; [eapply tests_okay; exact http|]. intro OK.
    eapply does_then; [eapply does_when; [apply sts_without|intro; walk]|].
    eapply does_then; [eapply does_when; [apply tests_and; [|intro]|intro; walk]|].
    { eapply tests_get; [apply sts_directive|apply sts_directive_unique|]. intros v V. cbv beta. apply does_ret. apply iff_refl. }
    { eapply tests_get; [apply sts_directive|apply sts_directive_unique|]. intros v V. cbv beta. apply does_ret. apply iff_refl. }
    eapply does_get; [exact gets_sts|apply members_unique'|]. intros l L. cbv beta.
    eapply does_get; [apply does_map with (R := part "item"); intros x _; apply does_field|intros a b; apply forall2_unique; apply part_unique|]. intros is IS. cbv beta. walk.
  - open_table. unfold transport_security. cbn [j_msg j_who of_response]. split.
    + intros [OK [[[l [L N]] ->]|[[[[v [[l [L V]] Q]] [u [[l' [L' V']] Q']]] ->]|[l [L [is [F [d [I ->]]]]]]]]].
      * left. exists []. split; [reflexivity|]. split; [reflexivity|]. exists l. auto.
      * right. left. exists []. split; [reflexivity|]. split; [reflexivity|]. rewrite (members_unique' L' L) in V'. exists l, v, u. repeat apply conj; auto.
      * right. right. left. exists [(s "directive", CVal d)]. split; [reflexivity|]. exists l, is, d. repeat apply conj; auto.
    + intros [[? [-> [-> [l [[OK L] N]]]]]|[[? [-> [-> [l [v [u [[OK L] [V [Q [V' Q']]]]]]]]]]|[[? [-> [l [is [d [[OK L] [F [I ->]]]]]]]]|[]]]]; (split; [exact OK|]).
      * left. split; [|reflexivity]. exists l. auto.
      * right. left. split; [|reflexivity]. split; [exists v|exists u]; (split; [exists l; auto|assumption]).
      * right. right. exists l. split; [exact L|]. exists is. split; [exact F|]. now exists d.
Qed.

(** *** Challenges *)

Lemma gets_challenge_header k (D : event -> Prop) f : In k challenge_headers -> (forall l, listed E m k l -> reports E W (f l) D) -> reports E W (l <- items j k ;; f l) D.
Proof. intros K F. eapply does_any; [apply does_items; [exact http|]|exact F]. destruct K as [<-|[<-|[]]]; reflexivity. Qed.
Hypothesis side_line : forall q, req = Some q -> forall e, due (skipn 1 (rules_request_line E q)) e -> W e.
Hypothesis side_body : forall q, req = Some q -> forall e, due (rules_codings E (of_request q)) e -> W e.
Hypothesis side_form : forall q, req = Some q -> forall e, due (rules_form E (of_request q)) e -> W e.

Lemma tests_bearer q : tests E W (bearer_in_header q) (token_in_header E q).
Proof.
  unfold bearer_in_header. apply tests_and; [eapply tests_okay; exact http|intros _].
  eapply tests_get; [apply does_attr; exact http|apply has_part_unique|]. intros i I. cbv beta. apply does_ret. apply iff_refl.
Qed.
Lemma tests_token q : req = Some q -> tests E W (request_has_token q) (with_token E q).
Proof.
  intro Q. unfold request_has_token, with_token. apply tests_or; [apply tests_bearer|intros _]. apply tests_or; [|intros _].
  - eapply returns_bind with (R := form_is_keys E (of_request q)).
    + eapply does_side; [apply form_follows; [exact http|now apply side_body]|now apply side_form].
    + intros o O. apply does_ret. unfold token_in_body. split.
      * destruct o as [keys|]; [|discriminate]. intro T. apply has_token_iff in T. exists keys. split; [now apply O|exact T].
      * intros [keys [K I]]. apply O in K. subst o. now apply has_token_iff.
  - apply (@tests_token_in_uri E W http q). now apply side_line.
Qed.

Definition basic_event (k : string) (ps : val) (e : event) : Prop :=
  (stringy ps /\ e = Said w 1273 [rarg n k]) \/
  (~ stringy ps /\ exists d, params ps d /\ (
    (contains veq d (VStr (s "realm")) = false /\ e = Said w 1206 [rarg n k]) \/
    (exists c, In c (getall veq d (VStr (s "charset"))) /\ exists x, text_is c x /\ ~ P_Header.same_name x (s "utf-8") /\ e = Said w 1208 [rarg n k; (s "charset", CVal c)]) \/
    (exists x, In x (iter veq d) /\ veq (VStr (s "charset")) x = false /\ veq (VStr (s "realm")) x = false /\ e = Said w 1207 [rarg n k; (s "param", CVal x)]))).
Lemma not_utf8 x : negb (str_eqb (lower x) (s "utf-8")) = true <-> ~ P_Header.same_name x (s "utf-8").
Proof.
  apply negb_iff. rewrite same_name_lower. change (lower (s "utf-8")) with (s "utf-8"). apply str_eqb_eq.
Qed.
Lemma gets_text c : returns E W (some_of match str_like c with Some (Plain x) | Some (CI x) => Some x | None => None end) (text_is c).
Proof. eapply does_weak; [apply does_some|]. intros x X. now apply text_is_iff. Qed.
Lemma tests_dict_lacks ps key : tests E W (notM (dict_has ps key)) (exists d, params ps d /\ contains veq d key = false).
Proof.
  unfold notM, dict_has. eapply returns_bind with (R := fun b => exists d, params ps d /\ b = contains veq d key).
  - eapply returns_bind; [apply does_dict|]. intros d D. apply does_ret. eauto.
  - intros b [d [D ->]]. apply does_ret. split.
    + intro N. exists d. split; [exact D|]. now destruct (contains veq d key).
    + intros [d' [D' N]]. rewrite (params_unique D' D) in N. now rewrite N.
Qed.
Lemma basic_follows k ps : reports E W (check_basic_challenge n p req k ps) (basic_event k ps).
Proof.
  unfold check_basic_challenge, basic_event. eapply does_to; [eapply does_if; [apply is_str_iff|intros _; apply does_say|intros _]|].
  - eapply does_then; [eapply does_when; [apply tests_dict_lacks|intros _; apply does_say]|].
    eapply does_get; [apply does_dict|apply params_unique|]. intros d _. cbv beta.
    eapply does_then; [apply does_each; intros c _; eapply does_get; [apply gets_text|intros a b; apply text_is_unique|]; intros x _; cbv beta; eapply does_when; [apply tests_pure; apply not_utf8|intros _; apply does_say]|].
    apply does_each. intros x _. apply does_say.
  - intro e. cbn [j_who of_response]. apply or_iff_compat_l. apply and_iff_compat_l. split.
    + intros [[[d [D N]] ->]|[d [D [[c [I [x [X [N ->]]]]]|[x [I ->]]]]]].
      * exists d. split; [exact D|]. left. auto.
      * exists d. split; [exact D|]. right. left. exists c. split; [exact I|]. exists x. auto.
      * exists d. split; [exact D|]. right. right. apply filter_In in I. destruct I as [I N]. exists x. split; [exact I|].
        apply negb_true_iff in N. unfold mem_val in N. cbn [existsb] in N. apply orb_false_iff in N. destruct N as [N N']. rewrite orb_false_r in N'. auto.
    + intros [d [D [[N ->]|[[c [I [x [X [N ->]]]]]|[x [I [N [N' ->]]]]]]]].
      * left. split; [|reflexivity]. eauto.
      * right. exists d. split; [exact D|]. left. exists c. split; [exact I|]. exists x. auto.
      * right. exists d. split; [exact D|]. right. exists x. split; [|reflexivity]. apply filter_In. split; [exact I|]. unfold mem_val. cbn [existsb]. now rewrite N, N'.
Qed.

Definition bearer_details (d : list (val * val)) (e : event) : Prop :=
  (exists k, In k (dup_keys veq d) /\ (exists x, In x ["realm"; "scope"; "error"; "error_description"; "error_uri"] /\ veq (VStr (s x)) k = true) /\ e = Said w 1265 [(s "param", CVal k)]) \/
  (exists xy, In xy error_symbols /\ exists v, getitem veq d (VStr (s (fst xy))) = Some v /\ not_parsed E (snd xy) (text_of v) /\
     e = Said w 1266 [(s "error", CError); (s "param", CVal (VStr (s (fst xy)))); (s "value", CVal v)]) \/
  (((status p [401]%Z /\ contains veq d (VStr (s "error")) = false) /\ exists q, req = Some q /\ token_in_header E q) /\ e = Said w 1267 []) \/
  (exists code, getitem veq d (VStr (s "error")) = Some code /\ exists z, goes_with code z /\ z <> st /\ e = Said w 1268 [(s "error_code", CVal code); (s "expected_status", CVal (VInt z))]) \/
  ((exists q, req = Some q /\ lacks (q_msg q) "Authorization" /\ ~ with_token E q) /\
     exists x, In x ["error"; "error_description"; "error_uri"] /\ contains veq d (VStr (s x)) = true /\ e = Said w 1269 [(s "param", CVal (VStr (s x)))]).
Definition bearer_event (ps : val) (e : event) : Prop :=
  (exists q, req = Some q /\ insecure (q_scheme q) /\ e = Said w 1263 []) \/
  ((stringy ps \/ truthy_val ps = false) /\ e = Said w 1264 []) \/
  (~ (stringy ps \/ truthy_val ps = false) /\ exists d, params ps d /\ bearer_details d e).
Lemma expected_iff code z : expected_status code = Some z <-> goes_with code z.
Proof.
  unfold expected_status. split.
  - destruct (veq (VStr (s "invalid_request")) code) eqn:A; [intro Q; injection Q as <-; now apply with_400|].
    destruct (veq (VStr (s "invalid_token")) code) eqn:B; [intro Q; injection Q as <-; now apply with_401|].
    destruct (veq (VStr (s "insufficient_scope")) code) eqn:C; [intro Q; injection Q as <-; now apply with_403|discriminate].
  - intros [A|A B|A B C]; rewrite A; [reflexivity|rewrite B; reflexivity|]. now rewrite B, C.
Qed.
Lemma error_silent xy : In xy error_symbols -> silent (snd xy) = true.
Proof. intros [<-|[<-|[<-|[<-|[]]]]]; reflexivity. Qed.
Lemma mem_iff k l : mem_val k (map (fun x => VStr (s x)) l) = true <-> exists x, In x l /\ veq (VStr (s x)) k = true.
Proof.
  unfold mem_val. rewrite existsb_exists. split.
  - intros [v [I V]]. apply in_map_iff in I. destruct I as [x [<- I]]. eauto.
  - intros [x [I V]]. exists (VStr (s x)). split; [apply in_map_iff; eauto|exact V].
Qed.
Lemma does_option {A} (o : option A) (f : A -> M unit) (D : A -> event -> Prop) : (forall v, o = Some v -> reports E W (f v) (D v)) ->
  reports E W (match o with Some v => f v | None => ret tt end) (fun e => exists v, o = Some v /\ D v e).
Proof.
  intro F. destruct o as [v|].
  - eapply does_to; [now apply F|]. intro e. split; [eauto|]. intros [u [Q H]]. now injection Q as <-.
  - apply does_none; [|exact Logic.I]. intros e [v [Q _]]. discriminate Q.
Qed.
Definition token_known (token : option bool) : Prop := match req with None => token = None | Some q => exists b, token = Some b /\ (b = true <-> with_token E q) end.
Lemma tests_answered (f : request -> M bool) (P : request -> Prop) : (forall q, req = Some q -> tests E W (f q) (P q)) ->
  tests E W (match req with Some q => f q | None => ret false end) (exists q, req = Some q /\ P q).
Proof.
  intro F. destruct req as [q|].
  - eapply tests_iff; [now apply F|]. split; [eauto|]. intros [q' [Q H]]. now injection Q as <-.
  - apply does_ret. split; [discriminate|]. intros [q [Q _]]. discriminate Q.
Qed.
Lemma bearer_params_follow ps (token : option bool) : token_known token ->
  reports E W (check_bearer_params n p req ps token) (fun e => exists d, params ps d /\ bearer_details d e).
Proof.
  intro T. unfold check_bearer_params, bearer_details. eapply does_to.
  - eapply does_get; [apply does_dict|apply params_unique|]. intros d _. cbv beta.
    eapply does_then; [apply does_each; intros k _; eapply does_when; [apply tests_pure; apply mem_iff|intros _; apply does_say]|].
    eapply does_then; [apply does_each; intros xy I; apply does_option; intros v _|].
    { eapply does_after with (D' := nothing); [apply does_parse; [exact http|now apply error_silent]|apply does_ret; exact Logic.I]. }
    eapply does_then; [eapply does_when; [apply tests_and; [apply tests_pure; apply and_iff; [apply status_in_iff|apply false_iff]|intros _; apply tests_answered; intros q _; apply tests_bearer]|intros _; apply does_say]|].
    eapply does_then; [apply does_option; intros code _; apply does_option; intros z _; eapply does_when; [apply tests_pure; apply negb_iff; apply Z.eqb_eq|intros _; apply does_say]|].
    eapply does_when; [apply tests_and; [apply tests_answered; intros q _; eapply tests_absent; exact http|intros _; apply tests_pure; apply iff_refl]|].
    intros _. apply does_each. intros x _. eapply does_when; [apply tests_pure; apply iff_refl|intros _; apply does_say].
  - assert (N : (exists q, req = Some q /\ lacks (q_msg q) "Authorization") /\ negb (says_yes token) = true <-> exists q, req = Some q /\ lacks (q_msg q) "Authorization" /\ ~ with_token E q).
    { assert (Y : forall q, req = Some q -> (negb (says_yes token) = true <-> ~ with_token E q)).
      { intros q Q. unfold token_known in T. rewrite Q in T. destruct T as [b [-> B]]. apply negb_iff. destruct b; cbn; exact B. }
      split; [intros [[q [Q L]] K]; exists q; split; [exact Q|]; split; [exact L|]; now apply (Y q Q)|].
      intros [q [Q [L K]]]. split; [eauto|]. now apply (Y q Q). }
    intro e. cbv beta. cbn [j_who of_response]. split; intros [d [D H]]; exists d; (split; [exact D|]).
    + destruct H as [H|[[xy [I [v [V [[H K]|[]]]]]]|[H|[[code [C [z [Z [H K]]]]]|[H [x [I K]]]]]]].
      * left. exact H.
      * right. left. exists xy. split; [exact I|]. exists v. auto.
      * right. right. left. exact H.
      * right. right. right. left. exists code. split; [exact C|]. exists z. split; [now apply expected_iff|auto].
      * right. right. right. right. split; [now apply N|]. eauto.
    + destruct H as [H|[[xy [I [v [V [H K]]]]]|[H|[[code [C [z [Z [H K]]]]]|[H K]]]]].
      * left. exact H.
      * right. left. exists xy. split; [exact I|]. exists v. split; [exact V|]. left. auto.
      * right. right. left. exact H.
      * right. right. right. left. exists code. split; [exact C|]. exists z. split; [now apply expected_iff|auto].
      * right. right. right. right. split; [now apply N|exact K].
Qed.
Lemma does_onto {A B} (c : M A) (f : A -> M B) D (R : A -> Prop) D' (R' : B -> Prop) : does E W c D R -> (forall v, R v -> does E W (f v) D' R') ->
  does E W (bind c f) (fun e => D e \/ D' e) R'.
Proof.
  intros [S C] F. unfold does, bind. destruct (c E) as [es [v|x]] eqn:M; cbn [fst snd] in *.
  - destruct (C v eq_refl) as [Rv T]. destruct (F v Rv) as [S' C']. destruct (f v E) as [es' r]. cbn [fst snd] in *. split.
    + intros e I. apply in_app_or in I. destruct I as [I|I]; [destruct (S e I) as [ ? |[ ? | ?]]; tauto|destruct (S' e I) as [ ? |[ ? | ?]]; tauto].
    + intros u O. destruct (C' u O) as [Ru T']. split; [exact Ru|]. intros e [X|X]; apply in_or_app; [left|right]; auto.
  - split; [|intros u O; discriminate O]. intros e I. destruct (S e I) as [ ? |[ ? | ?]]; tauto.
Qed.
Lemma bearer_follows ps : reports E W (check_bearer_challenge n p req ps) (bearer_event ps).
Proof.
  unfold check_bearer_challenge, bearer_event. eapply does_onto with (R := token_known).
  - assert (TT : forall q, req = Some q -> tests E W (request_has_token q) (with_token E q)) by (intros; now apply tests_token).
    unfold token_known. destruct req as [q|] eqn:Q; [|apply does_none; [intros e [q [K _]]; discriminate K|reflexivity]].
    eapply does_to; [eapply does_then; [eapply does_when; [apply tests_pure; apply insecure_iff|intros _; apply does_say]|eapply returns_bind; [now apply TT|]; intros b B; apply does_ret; eauto]|].
    intro e. split; [intros [[I H]|[]]; eauto|]. intros [q' [K [I H]]]. injection K as <-. left. auto.
  - intros token T. eapply does_if; [apply or_iff; [apply is_str_iff|apply false_iff]|intros _; apply does_say|intros _; now apply bearer_params_follow].
Qed.
Lemma www_iff k : In k challenge_headers -> (is_header (s k) ["WWW-Authenticate"] <-> k = "WWW-Authenticate").
Proof. rewrite <- among_iff. intros [<-|[<-|[]]]; split; intro H; try reflexivity; exfalso; [discriminate H|vm_compute in H; discriminate H..]. Qed.
Lemma challenges_report : reports E W (check_challenges n p req) (fun e =>
  (exists k ps, In k challenge_headers /\ challenge E p k "Basic" ps /\ basic_event k ps e) \/ (exists ps, challenge E p "WWW-Authenticate" "Bearer" ps /\ bearer_event ps e)).
Proof.
  eapply does_to.
  - unfold check_challenges. apply does_each. intros k K. eapply does_each_item; [exact http|destruct K as [<-|[<-|[]]]; reflexivity|]. intros x _.
    eapply does_get; [apply does_field|apply part_unique|]. intros i _. cbv beta. eapply does_get; [apply does_field|apply part_unique|]. intros ps _. cbv beta.
    eapply does_then; [eapply does_if; [apply iff_refl|intros _; apply basic_follows|intros _; apply does_ret; exact Logic.I]|].
    eapply does_if; [apply and_iff; [apply iff_refl|apply among_iff]|intros _; apply bearer_follows|intros _; apply does_ret; exact Logic.I].
  - intro e. cbv beta. unfold challenge. cbn [j_msg of_response]. split.
    + intros [k [K [x [X [i [I [ps [P [[[B H]|[_ []]]|[[[B N] H]|[_ []]]]]]]]]]]].
      * left. exists k, ps. split; [exact K|]. split; [exists x, i; auto|exact H].
      * right. apply (www_iff K) in N. subst k. exists ps. split; [exists x, i; auto|exact H].
    + intros [[k [ps [K [[x [i [X [I [B P]]]]] H]]]]|[ps [[x [i [X [I [B P]]]]] H]]].
      * exists k. split; [exact K|]. exists x. split; [exact X|]. exists i. split; [exact I|]. exists ps. split; [exact P|]. left. left. auto.
      * exists "WWW-Authenticate". split; [now left|]. exists x. split; [exact X|]. exists i. split; [exact I|]. exists ps. split; [exact P|]. right. left. split; [|exact H].
        split; [exact B|]. apply www_iff; [now left|reflexivity].
Qed.
Lemma challenges_follow : follows (check_challenges n p req) (rules_challenges E n p req).
Proof.
  assert (SB : forall v, ~ (stringy v \/ truthy_val v = false) <-> ~ stringy v /\ truthy_val v = true).
  { intro v. destruct (truthy_val v); intuition congruence. }
  eapply does_to; [apply challenges_report|]. open_table. unfold basic_params, bearer_params. split.
  - intros [[k [ps [K [C [[Y ->]|[Y [d [D [[N ->]|[[c [I [x [X [N ->]]]]]|[x [I [N [N' ->]]]]]]]]]]]]]]|[ps [C [[q [Q [I ->]]]|[[Y ->]|[Y [d [D H]]]]]]]].
    + left. eexists. split; [reflexivity|]. exists k, ps. auto.
    + right. left. eexists. split; [reflexivity|]. exists k, d. repeat apply conj; auto. exists ps. auto.
    + do 2 right. left. eexists. split; [reflexivity|]. exists k, d, c, x. repeat apply conj; auto. exists ps. auto.
    + do 3 right. left. eexists. split; [reflexivity|]. exists k, d, x. repeat apply conj; auto. exists ps. auto.
    + do 4 right. left. eexists. split; [reflexivity|]. split; [reflexivity|]. exists q, ps. auto.
    + do 5 right. left. eexists. split; [reflexivity|]. split; [reflexivity|]. exists ps. auto.
    + apply SB in Y. assert (BP : exists ps, challenge E p "WWW-Authenticate" "Bearer" ps /\ ~ stringy ps /\ truthy_val ps = true /\ params ps d) by (exists ps; tauto).
      destruct H as [[k [I [[x [X V]] ->]]]|[[[x y] [I [v [V [H ->]]]]]|[[[[S N] [q [Q H]]] ->]|[[code [G [z [Z [N ->]]]]]|[[q [Q [L T]]] [x [I [X ->]]]]]]]].
      * do 6 right. left. eexists. split; [reflexivity|]. exists d, k, x. repeat apply conj; auto.
      * do 7 right. left. eexists. split; [reflexivity|]. exists d, x, y, v. repeat apply conj; auto.
      * do 8 right. left. eexists. split; [reflexivity|]. split; [reflexivity|]. exists d, q. do 4 (split; [assumption|]). exact H.
      * do 9 right. left. eexists. split; [reflexivity|]. exists d, code, z. repeat apply conj; auto.
      * do 10 right. left. eexists. split; [reflexivity|]. exists d, q, x. repeat apply conj; auto.
  - intros [[? [-> [k [ps [K [C [Y ->]]]]]]]|[[? [-> [k [d [K [[ps [C [Y D]]] [N ->]]]]]]]|[[? [-> [k [d [c [x [K [[ps [C [Y D]]] [I [X [N ->]]]]]]]]]]]|[[? [-> [k [d [x [K [[ps [C [Y D]]] [I [N [N' ->]]]]]]]]]]|[[? [-> [-> [q [ps [Q [C I]]]]]]]|[[? [-> [-> [ps [C Y]]]]]|H]]]]]].
    + left. exists k, ps. repeat apply conj; auto. left. auto.
    + left. exists k, ps. repeat apply conj; auto. right. split; [exact Y|]. exists d. split; [exact D|]. left. auto.
    + left. exists k, ps. repeat apply conj; auto. right. split; [exact Y|]. exists d. split; [exact D|]. right. left. exists c. split; [exact I|]. exists x. auto.
    + left. exists k, ps. repeat apply conj; auto. right. split; [exact Y|]. exists d. split; [exact D|]. right. right. exists x. auto.
    + right. exists ps. split; [exact C|]. left. exists q. auto.
    + right. exists ps. split; [exact C|]. right. left. auto.
    + assert (B : forall d e, (exists ps, challenge E p "WWW-Authenticate" "Bearer" ps /\ ~ stringy ps /\ truthy_val ps = true /\ params ps d) -> bearer_details d e -> exists ps, challenge E p "WWW-Authenticate" "Bearer" ps /\ bearer_event ps e).
      { intros d e' [ps [C [Y [Y' D]]]] H'. exists ps. split; [exact C|]. right. right. split; [apply SB; auto|]. exists d. auto. }
      right. destruct H as [[? [-> [d [k [x [BP [I [X [V ->]]]]]]]]]|[[? [-> [d [x [y [v [BP [I [V [H ->]]]]]]]]]]|[[? [-> [-> [d [q [BP [S [N [Q H]]]]]]]]]|[[? [-> [d [code [z [BP [G [Z [N ->]]]]]]]]]|[[? [-> [d [q [x [BP [Q [L [T [I [X ->]]]]]]]]]]]|[]]]]]]; apply (B d _ BP).
      * left. exists k. repeat apply conj; eauto.
      * right. left. exists (x, y). split; [exact I|]. exists v. auto.
      * do 2 right. left. split; [|reflexivity]. split; [split; assumption|]. exists q. split; assumption.
      * do 3 right. left. exists code. split; [exact G|]. exists z. auto.
      * do 4 right. split; [exists q; auto|]. exists x. auto.
Qed.

(** *** Together *)
Lemma quiet_items' k : returns E W (items j k) (fun _ => True).
Proof. unfold items. eapply returns_bind; [apply does_value; exact http|]. intros v _. eapply returns_bind; [apply does_some|]. intros l _. apply does_ret. exact Logic.I. Qed.
Lemma silence_quiet : reports E W (silence_itself n p req) nothing.
Proof.
  unfold silence_itself. eapply does_any; [apply quiet_items'|]. intros l _. eapply does_any with (R := fun _ => True).
  - unfold silence_ids. eapply returns_bind; [apply does_map with (R := fun _ _ => True)|].
    + intros x _. eapply returns_bind; [apply does_some|]. intros [a b] _. cbn [fst snd]. destruct a; try apply does_raise; apply does_ret; exact Logic.I.
    + intros ids _. apply does_ret. exact Logic.I.
  - intros ids _. apply does_silence.
Qed.
Lemma early_iff : early p = (st =? 103)%Z.
Proof. unfold early, status_in. cbn [existsb]. now rewrite orb_false_r, Z.eqb_sym. Qed.
Lemma response_all : Forall2 follows (response_checks n p req) ([] :: response_rules E n p req).
Proof.
  unfold response_checks, response_rules. apply Forall2_cons; [exact silence_quiet|]. rewrite request_tls_is. apply Forall2_app; [apply message_all; [exact http|exact side_codings]|].
  apply Forall2_app.
  - repeat apply Forall2_cons; [exact reason|exact status_range|exact close_option|exact response_headers|exact switching|exact no_content_body
      |exact reset_content_body|exact location_missing|exact odd_status|exact allow_missing|exact timeout_close|exact date_missing
      |exact created_fragment|exact last_modified|exact headers_304|exact partial_content|exact response_directives
      |exact pragma_no_cache|exact blocked_by_follows|exact disposition_follows|exact alt_svc|exact sts_follows|exact accept_patch|exact response_pairs
      |exact overridden|exact vary_host|exact challenge_missing|exact proxy_challenge_missing|exact challenges_follow|apply Forall2_nil].
  - rewrite early_iff. destruct (st =? 103)%Z; [apply Forall2_nil|].
    repeat apply Forall2_cons; [exact no_body_status|exact informational_close|exact informational_metadata|exact location_useless|exact retry_after
      |exact content_range|exact cached_follows|exact expired|exact served_stale|exact immutable|exact allow|exact via_missing|apply Forall2_nil].
Qed.
End Response.
