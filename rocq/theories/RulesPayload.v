(** The checks of bodies follow their rules. *)
From Coq Require Import ZifyBool ZifyNat ZifyN String.
From Verif Require Import Base Earley Grammar Syntax Actions Nested P_Types Text Structure Known Tables Header HeaderProofs P_Header P_Views P_Util Values Notices
  ChecksBase ChecksLogic ChecksViews ChecksFacts ChecksSays ChecksMessage ChecksRequest ChecksResponse HeaderValue P_Bodies RulesLogic Rules RulesBase RulesMessage.
Open Scope nat_scope.
Open Scope list_scope.
Unset Strict Implicit.
Local Open Scope string_scope.
Local Open Scope list_scope.

(** ** The outcomes are determined *)

Lemma coding_injective : forall a b, map coding_value a = map coding_value b -> a = b.
Proof.
  induction a as [|x a IH]; intros [|y b] H; try discriminate H; [reflexivity|]. cbn [map] in H. injection H as H T. f_equal; [|now apply IH].
  unfold coding_value in H. destruct x as [x|x], y as [y|y]; try discriminate H; injection H as ->; reflexivity.
Qed.
Section Determined.
Variable E : env.
Variable m : msg.
Lemma decoded_unique v ns v' ns' : decoded E m v ns -> decoded E m v' ns' -> v = v' /\ ns = ns'.
Proof.
  intros [[A ->]|[A [cs [V C]]]] [[B ->]|[B [cs' [V' C']]]]; try congruence; [split; congruence|].
  pose proof (header_value_unique V V') as Q. injection Q as Q. apply coding_injective in Q. subst cs'.
  destruct C as [[b [X D]]|[X [-> ->]]], C' as [[b' [X' D']]|[X' [-> ->]]]; try (exfalso; first [eapply X; eassumption|eapply X'; eassumption]); [|now split].
  rewrite X in X'. injection X' as <-. eapply C53_determined; eassumption.
Qed.
Lemma decoded_to_unique v v' : decoded_to E m v -> decoded_to E m v' -> v = v'.
Proof. intros [ns D] [ns' D']. apply (decoded_unique D D'). Qed.
Lemma text_is_unique v x y : text_is v x -> text_is v y -> x = y.
Proof. intros A B. apply text_is_iff in A. apply text_is_iff in B. congruence. Qed.
Lemma charset_name_unique t t' : charset_name E m t -> charset_name E m t' -> t = t'.
Proof.
  intros [[O [d [c [[p [P D]] [G T]]]]]|[O ->]] [[O' [d' [c' [[p' [P' D']] [G' T']]]]]|[O' ->]]; try tauto.
  pose proof (has_part_unique P P'). subst p'. pose proof (params_unique D D'). subst d'. rewrite G in G'. injection G' as <-. eapply text_is_unique; eassumption.
Qed.
Lemma charset_unique o o' : charset E m o -> charset E m o' -> o = o'.
Proof.
  intros [t [T H]] [t' [T' H']]. pose proof (charset_name_unique T T'). subst t'.
  assert (R : forall x, readable (VBytes x)) by (intro; now apply readable_okay).
  destruct H as [[A ->]|[cs [b [A [B H]]]]], H' as [[A' ->]|[cs' [b' [A' [B' H']]]]]; try congruence. rewrite A in A'. injection A' as <-.
  pose proof (decoded_to_unique B B'). subst b'.
  destruct H as [[x [y [-> [D ->]]]]|[[x [-> [D ->]]]|[N ->]]], H' as [[x' [y' [Q [D' ->]]]]|[[x' [Q [D' ->]]]|[N' ->]]]; try reflexivity;
    try (injection Q as <-; congruence); subst; exfalso; match goal with K : ~ readable _ |- _ => apply K; apply R end.
Qed.
Lemma unicode_unique v v' : unicode E m v -> unicode E m v' -> v = v'.
Proof.
  assert (R : forall x, readable (VBytes x)) by (intro; now apply readable_okay).
  intros [A|[A [b [B H]]]] [A'|[A' [b' [B' H']]]]; try congruence. pose proof (decoded_to_unique B B'). subst b'.
  destruct H as [[x [-> [C ->]]]|[[x [c [t [-> [C [D ->]]]]]]|[N ->]]], H' as [[x' [Q [C' ->]]]|[[x' [c' [t' [Q [C' [D' ->]]]]]]|[N' ->]]]; subst;
    try reflexivity; try (exfalso; match goal with K : ~ readable _ |- _ => apply K; apply R end); pose proof (charset_unique C C') as X; try discriminate X.
  injection X as <-. injection Q as <-. congruence.
Qed.
End Determined.

Lemma does_exact {A} E W (c : M A) es v (D : event -> Prop) (R : A -> Prop) : c E = (es, Ok v) -> R v -> (forall e, In e es <-> D e) -> does E W c D R.
Proof. intros X r H. unfold does. rewrite X. cbn [fst snd]. split; [intros e I; right; right; now apply H|]. intros u O. injection O as <-. split; [exact r|]. intros e d. now apply H. Qed.

Section Payload.
Variable E : env.
Variable W : event -> Prop.
Hypothesis http : parses_http (e_read E).
Variable j : subject.
Notation m := (j_msg j).
Notation w := (j_who j).
Notation follows := (follows E W).

Lemma codings_due v ns : decoded E m v ns -> forall e, In e (map (coding_notice w) ns) <-> due (rules_codings E j) e.
Proof.
  intros D e. unfold rules_codings. cbn [due]. unfold due_by. cbn [r_who r_id r_due]. split.
  - assert (O : ns = [] \/ exists id c, ns = [(id, c)] /\ (id = 1036%N \/ id = 1037%N)).
    { destruct D as [[_ ->]|[_ [cs [_ [[b [_ D]]|[_ [_ ->]]]]]]]; [now left| |now left]. destruct (C53_one_notice D) as [->|[id [c [-> [I _]]]]]; [now left|right; eauto]. }
    intro I. destruct O as [->|[id [c [-> [-> | ->]]]]]; [destruct I| |]; destruct I as [<-|[]]; unfold coding_notice; cbn [fst snd N.eqb Pos.eqb]; [left|right; left]; dig.
  - intros [[ctx [-> [v' [c [D' ->]]]]]|[[ctx [-> [v' [c [D' ->]]]]]|[]]]; destruct (decoded_unique D D') as [_ ->]; left; reflexivity.
Qed.
Lemma does_decoded : does E W (decoded_body j) (due (rules_codings E j)) (decoded_to E m).
Proof.
  unfold decoded_body. destruct (m_decoded m) as [v|] eqn:G.
  - assert (D : decoded E m v []) by (left; auto). eapply does_to; [apply does_ret; exists []; exact D|]. intro e. rewrite <- (codings_due D). reflexivity.
  - eapply does_any; [apply does_value; exact http|]. intros v V. destruct V as [u [U V]]. destruct (codings_of http U) as [cs Q]. rewrite Q in V. subst v.
    assert (V : header_value E m "Content-Encoding" (VList (map coding_value cs))) by (exists u; auto).
    assert (B : (exists b, m_body m = VBytes b) \/ (forall b, m_body m <> VBytes b)) by (destruct (m_body m); first [left; eexists; reflexivity|right; discriminate]).
    rewrite <- map_rev. destruct B as [[b B]|B].
    + rewrite B. destruct (decode_all_spec E j (rev cs) b) as [v [ns [D X]]].
      assert (D' : decoded E m v ns) by (right; split; [exact G|]; exists cs; split; [exact V|]; left; eauto).
      eapply does_exact; [exact X|exists ns; exact D'|]. apply (codings_due D').
    + assert (D : decoded E m (m_body m) []) by (right; split; [exact G|]; exists cs; split; [exact V|]; right; auto).
      eapply does_exact; [|exists []; exact D|apply (codings_due D)].
      destruct (rev cs) as [|c l]; cbn [map decode_all]; [reflexivity|]. destruct (m_body m) eqn:M; try reflexivity. exfalso. eapply B. reflexivity.
Qed.

(** Those notices may also be reported on the side. *)
Hypothesis side : forall e, due (rules_codings E j) e -> W e.
Lemma gets_decoded : returns E W (decoded_body j) (decoded_to E m).
Proof. eapply does_side; [exact does_decoded|exact side]. Qed.
Lemma bytes_or v : (exists x, v = VBytes x) \/ (v = VNone \/ exists x, v = VUnavailable x) \/ ((forall x, v <> VBytes x) /\ readable v).
Proof. destruct v; first [left; eexists; reflexivity|right; left; left; reflexivity|right; left; right; eexists; reflexivity|right; right; split; [discriminate|now apply readable_okay]]. Qed.
Lemma gets_charset : returns E W (guessed_charset j) (charset E m).
Proof.
  unfold guessed_charset.
  assert (N : returns E W (charset <- ifM (okayM j "Content-Type")
                 (p <- attr_of j "Content-Type" "param" ;; dict_get p (VStr (s "charset")) (VStr (s "utf-8")))
                 (ret (VStr (s "utf-8"))) ;;
               some_of match str_like charset with Some (Plain x) | Some (CI x) => Some x | None => None end) (charset_name E m)).
  { eapply returns_bind.
    - eapply does_to; [eapply does_ifM with (D := nothing) (Da := nothing) (Db := nothing) (R := fun c => forall t, text_is c t -> charset_name E m t); [eapply tests_okay; exact http| |]|unfold nothing; tauto].
      + intro T. eapply returns_bind; [gets|]. intros p P. eapply does_weak; [apply does_dict_get|]. intros c [d [D G]] t X. left. unfold type_params. dig.
      + intro T. apply does_ret. intros t X. right. split; [exact T|]. destruct X as [X|X]; [injection X as <-; reflexivity|discriminate X].
    - intros c C. eapply does_weak; [apply does_some|]. intros t T. apply C. now apply text_is_iff. }
  assert (F : forall k : str -> M (option str), (forall t, charset_name E m t -> returns E W (k t) (charset E m)) ->
    returns E W (charset <- ifM (okayM j "Content-Type")
                 (p <- attr_of j "Content-Type" "param" ;; dict_get p (VStr (s "charset")) (VStr (s "utf-8")))
                 (ret (VStr (s "utf-8"))) ;;
               name <- some_of match str_like charset with Some (Plain x) | Some (CI x) => Some x | None => None end ;; k name) (charset E m)).
  { intros k K. revert N. generalize (ifM (okayM j "Content-Type") (p <- attr_of j "Content-Type" "param" ;; dict_get p (VStr (s "charset")) (VStr (s "utf-8"))) (ret (VStr (s "utf-8")))).
    intros c N. pose proof (@returns_bind E W _ _ _ k _ (charset E m) N K) as H. revert H. unfold returns, does, bind. destruct (c E) as [es [x|x]]; [|auto].
    destruct (some_of _ E) as [es' [y|y]]; [|auto]. destruct (k y E) as [es'' r]. cbn [fst snd]. now rewrite app_assoc. }
  apply F. intros t T. eapply returns_bind; [apply does_ask|]. intros ? ->. destruct (e_codec E t) as [cs| |] eqn:K; [|apply does_ret; exists t; auto|apply does_raise].
  eapply returns_bind; [exact gets_decoded|]. intros b B. destruct (bytes_or b) as [[x ->]|[N'|[N' R]]].
  - eapply returns_bind; [apply does_ask|]. intros ? ->. destruct (e_decode E cs x) eqn:D; [| |apply does_raise]; apply does_ret; exists t; (split; [exact T|]); right; exists cs, (VBytes x); eauto 9.
  - assert (NR : ~ readable b) by (intros [A C]; destruct N' as [->|[x ->]]; [congruence|eapply C; reflexivity]).
    destruct N' as [->|[x ->]]; apply does_ret; exists t; (split; [exact T|]); right; eexists cs, _; eauto 9.
  - destruct b; try apply does_raise; exfalso; first [apply (proj1 R); reflexivity|eapply N'; reflexivity|eapply (proj2 R); reflexivity].
Qed.
Lemma gets_unicode : returns E W (unicode_body j) (unicode E m).
Proof.
  unfold unicode_body. destruct (m_unicode m) as [v|] eqn:G; [apply does_ret; left; exact G|].
  eapply returns_bind; [exact gets_decoded|]. intros b B. destruct (bytes_or b) as [[x ->]|[N'|[N' R]]].
  - eapply returns_bind; [exact gets_charset|]. intros [c|] C.
    + eapply returns_bind; [apply does_ask|]. intros ? ->. destruct (e_decode E c x) eqn:D; [|apply does_raise|apply does_raise]. apply does_ret. right. split; [exact G|]. exists (VBytes x). eauto 12.
    + apply does_ret. right. split; [exact G|]. exists (VBytes x). eauto 9.
  - assert (NR : ~ readable b) by (intros [A C]; destruct N' as [->|[x ->]]; [congruence|eapply C; reflexivity]).
    destruct N' as [->|[x ->]]; apply does_ret; right; (split; [exact G|]); eexists; eauto 9.
  - destruct b; try apply does_raise; exfalso; first [apply (proj1 R); reflexivity|eapply N'; reflexivity|eapply (proj2 R); reflexivity].
Qed.
Lemma tests_full : tests E W (content_is_full j) (full E j).
Proof.
  unfold content_is_full, full. destruct (j_status j) as [st|]; [|apply does_ret; tauto].
  destruct ((st =? 304)%Z || (st =? 103)%Z) eqn:S; [apply does_ret; split; [discriminate|]; lia|].
  assert (A : st <> 304%Z /\ st <> 103%Z) by lia. destruct A as [A B].
  assert (T : tests E W (pure (st =? 206)%Z &? is_unequal j "Content-Type" (const "MediaType" "multipart/byteranges")) (st = 206%Z /\ differs E m "Content-Type" (const "MediaType" "multipart/byteranges"))).
  { test. }
  unfold tests. eapply does_to; [eapply does_ifM with (Da := nothing) (Db := nothing); [exact T| |]|unfold nothing; tauto].
  - intro X. apply does_ret. split; [discriminate|tauto].
  - intro X. destruct (j_request j) as [q|]; apply does_ret.
    + rewrite negb_true_iff. destruct (str_eqb (q_method q) (s "HEAD")) eqn:Q; [apply str_eqb_eq in Q|]; (split; [|tauto]); [discriminate|]. intros _. repeat split; auto. intro H. apply str_eqb_eq in H. congruence.
    + unfold body_there. tauto.
Qed.
Lemma tests_type f (P : str -> Prop) : (forall x, f x = true <-> P x) -> tests E W (type_is j f) (exists x, media_type E m x /\ P x).
Proof.
  intro H. unfold type_is. eapply tests_iff; [test|]. unfold media_type. split.
  - intros [O [i [I p]]]. exists (text_of i). split; [split; [exact O|now exists i]|now apply H].
  - intros [x [[O [i [I <-]]] p]]. split; [exact O|]. exists i. split; [exact I|now apply H].
Qed.
Lemma tests_decoded : tests E W (b <- decoded_body j ;; ret (okay_value b)) (exists b, decoded_to E m b /\ readable b).
Proof. eapply tests_get; [exact gets_decoded|apply decoded_to_unique|]. intros v _. apply does_ret. symmetry. apply readable_okay. Qed.
Lemma tests_unicode : tests E W (b <- unicode_body j ;; ret (okay_value b)) (exists b, unicode E m b /\ readable b).
Proof. eapply tests_get; [exact gets_unicode|apply unicode_unique|]. intros v _. apply does_ret. symmetry. apply readable_okay. Qed.
Lemma json_iff x : is_json x = true <-> json_type x.
Proof. unfold is_json, json_type. apply or_iff; [apply media_iff|apply ends_iff]. Qed.
Lemma xml_iff x : is_xml x = true <-> xml_type x.
Proof. unfold is_xml, xml_type. apply or_iff; [apply media_iff|apply ends_iff]. Qed.
Lemma multipart_iff x : is_multipart x = true <-> multipart_type x.
Proof. apply starts_iff. Qed.
(** ** What is reported *)

Lemma not_text v : readable v -> (forall x, v <> VStr x) -> forall {A} (a : str -> M A) D (R : A -> Prop), does E W (match v with VStr t => a t | _ => raise Mistake end) D R.
Proof. intros _ N A a D R. destruct v; try apply does_raise. exfalso. eapply N. reflexivity. Qed.
Lemma json_follows : does E W (json_data j) (due (rules_json E j)) (fun _ => True).
Proof.
  unfold json_data. set (C := exists x, media_type E m x /\ json_type x).
  assert (T : tests E W (type_is j is_json &? (u <- unicode_body j ;; ret (okay_value u)) &? content_is_full j) (C /\ (exists b, unicode E m b /\ readable b) /\ full E j)).
  { apply tests_and; [apply tests_type, json_iff|intros _]. apply tests_and; [exact tests_unicode|intros _; exact tests_full]. }
  eapply does_to; [eapply does_ifM with (Da := due (rules_json E j)) (Db := nothing); [exact T| |intros _; apply does_ret; exact Logic.I]|].
  - intros [c [_ f]]. eapply does_any; [exact gets_unicode|]. intros v V.
    assert (X : (exists t, v = VStr t) \/ forall t, v <> VStr t) by (destruct v; first [left; eexists; reflexivity|right; discriminate]).
    destruct X as [[t ->]|X]; [|destruct v; try apply does_raise; exfalso; eapply X; reflexivity].
    assert (JT : json_text E j t) by (split; [exact c|split; [exact f|exact V]]).
    assert (U : forall t', json_text E j t' -> t' = t) by (intros t' [_ [_ V']]; pose proof (unicode_unique V V') as Q; now injection Q).
    eapply does_any; [apply does_ask|]. intros ? ->.
    assert (ACC : forall r, e_json E t <> JsonError -> e_json E t <> JsonRaises -> does E W (cs <- guessed_charset j ;;
       (match cs with
        | Some c => when (pure (negb (str_eqb c (s "ascii") || str_eqb c (s "utf-8")))) (say j 1281 [])
        | None => ret tt
        end) ;;; ret r) (due (rules_json E j)) (fun _ : json_value => True)).
    { intros r N N'. eapply does_any; [exact gets_charset|]. intros o O. eapply does_to.
      - eapply does_then with (D' := nothing); [|apply does_ret; exact Logic.I].
        instantiate (1 := fun e => exists c, o = Some c /\ c <> s "ascii" /\ c <> s "utf-8" /\ e = Said w 1281 []). destruct o as [c'|].
        + eapply does_to; [eapply does_when; [apply tests_pure, negb_iff, or_iff; apply str_eqb_eq|intros _; apply does_say]|]. intro e. split.
          * intros [A ->]. exists c'. tauto.
          * intros [x [Q [A [B ->]]]]. injection Q as <-. tauto.
        + eapply does_to; [apply does_ret; exact Logic.I|]. intro e. split; [intros []|intros [x [Q _]]; discriminate Q].
      - open_table. split.
        + intros [[x [-> [A [B ->]]]]|[]]. right. left. exists []. split; [reflexivity|]. split; [reflexivity|]. exists t, x. split; [exact JT|].
          split; [destruct (e_json E t); try congruence; eauto|]. auto.
        + intros [[ctx [-> [_ [t' [K B]]]]]|[[ctx [-> [-> [t' [x [K [_ [CS [A B]]]]]]]]]|[]]].
          * rewrite (U _ K) in B. congruence.
          * left. exists x. pose proof (charset_unique CS O). auto. }
    destruct (e_json E t) eqn:Q; [apply ACC; discriminate|apply ACC; discriminate| |].
    + eapply does_to; [eapply does_then with (D' := nothing); [apply does_say|apply does_ret; exact Logic.I]|]. open_table. split.
      * intros [->|[]]. left. dig.
      * intros [[ctx [-> [-> [t' [K B]]]]]|[[ctx [-> [-> [t' [x [K [B _]]]]]]]|[]]]; [now left|]. rewrite (U _ K), Q in B. destruct B as [B|[d B]]; discriminate B.
    + apply does_raise.
  - intro e. unfold nothing. split; [tauto|]. intro H. right. left. split; [|exact H].
    assert (K : exists t, json_text E j t) by (revert H; revert e; open_table; intro; split_up; eauto).
    destruct K as [t [c [f u]]]. split; [exact c|]. split; [|exact f]. exists (VStr t). split; [exact u|now apply readable_okay].
Qed.
Lemma bytes_match {A} v (a : str -> M A) D (R : A -> Prop) : (forall x, v = VBytes x -> does E W (a x) D R) -> does E W (match v with VBytes x => a x | _ => raise Mistake end) D R.
Proof. intro H. destruct v; try apply does_raise. now apply H. Qed.
Lemma readable_bytes x : readable (VBytes x).
Proof. now apply readable_okay. Qed.
Lemma xml_follows : follows (xml_data j) (rules_xml E j).
Proof.
  unfold xml_data. eapply does_under.
  - apply tests_and; [apply tests_type, xml_iff|intros _]. apply tests_and; [exact tests_decoded|intros _; exact tests_full].
  - intros [c [_ f]]. eapply does_any; [exact gets_decoded|]. intros v V. apply bytes_match. intros x ->.
    assert (U : forall t, xml_text E j t <-> t = x).
    { intro t. split; [intros [_ [_ V']]; pose proof (decoded_to_unique V V') as Q; now injection Q|]. intros ->. split; [exact c|split; [exact f|exact V]]. }
    eapply does_any; [apply does_ask|]. intros ? ->. unfold rules_xml. destruct (e_xml E x) eqn:Q; [| | |apply does_raise]; (eapply does_to; [first [apply does_say|apply does_ret; exact Logic.I]|]);
      intro e; cbn [due]; unfold due_by, plain, about, nothing; cbn [r_who r_id r_due]; setoid_rewrite U; (split; [intro; subst; try contradiction; dig|intro; split_up; subst; congruence]).
  - intro e. unfold rules_xml. cbn [due]. unfold due_by, plain, about. cbn [r_who r_id r_due]. intro.
    assert (K : exists t, xml_text E j t) by (split_up; eauto). destruct K as [t [c [f u]]]. split; [exact c|]. split; [|exact f]. exists (VBytes t). split; [exact u|apply readable_bytes].
Qed.
Lemma content_type_shown v : v = got_view (e_read E) (m_entries m) (s "Content-Type") ->
  (v_entries v = [] \/ exists us x, all_usable (m_entries m) (s "Content-Type") (us ++ [x]) /\ v_entries v = [x]).
Proof.
  intros ->. destruct (C33_entries (got_is (e_read E) (m_entries m) (s "Content-Type"))) as [us [c [U [C [_ O]]]]].
  destruct O as [[A ->]|[us' [x [-> ->]]]]; [|auto|right; eauto]. unfold shows_one. vm_compute in C. injection C as <-. auto.
Qed.
Lemma multipart_unique r r' : multipart E j r -> multipart E j r' -> r = r'.
Proof.
  intros [_ [_ [t [us [p [e [D [U R]]]]]]]] [_ [_ [t' [us' [p' [e' [D' [U' R']]]]]]]]. pose proof (decoded_to_unique D D') as Q. injection Q as <-.
  pose proof (all_usable_unique U U') as Q. apply app_inj_tail in Q. destruct Q as [_ Q]. injection Q as <- <-. congruence.
Qed.
Definition multipart_parts (o : option (list (bool * bool))) : Prop := forall ps, o = Some ps <-> exists r, multipart E j r /\ parts r = Some ps.
Lemma multipart_follows : does E W (multipart_data j) (due (rules_multipart E j)) multipart_parts.
Proof.
  unfold multipart_data. set (P := (exists x, media_type E m x /\ multipart_type x) /\ (exists b, decoded_to E m b /\ readable b) /\ full E j).
  assert (T : tests E W (type_is j is_multipart &? (b <- decoded_body j ;; ret (okay_value b)) &? content_is_full j) P).
  { apply tests_and; [apply tests_type, multipart_iff|intros _]. apply tests_and; [exact tests_decoded|intros _; exact tests_full]. }
  assert (PM : forall r, multipart E j r -> P).
  { intros r [c [f [t [us [p [e [D _]]]]]]]. split; [exact c|]. split; [|exact f]. exists (VBytes t). split; [exact D|apply readable_bytes]. }
  assert (DM : forall e, due (rules_multipart E j) e -> exists r, multipart E j r).
  { intro e. unfold rules_multipart. cbn [due]. unfold due_by, plain, about. cbn [r_who r_id r_due]. intro. split_up; eauto. }
  eapply does_to; [eapply does_ifM with (Da := due (rules_multipart E j)) (Db := nothing); [exact T| |]|].
  - intros [c [_ f]]. eapply does_any; [apply does_view; exact http|]. intros v V. eapply does_any; [exact gets_decoded|]. intros b B.
    destruct (content_type_shown V) as [X|[us [[p e] [U X]]]]; rewrite X; [apply does_raise|]. apply bytes_match. intros t ->.
    eapply does_any; [apply does_ask|]. intros ? ->. eapply does_any; [apply does_result|]. intros r R.
    assert (M : multipart E j r) by (split; [exact c|split; [exact f|exists t, us, p, e; auto]]).
    eapply does_to; [eapply does_then with (D' := nothing); [|apply does_ret; intro ps; split; [eauto|intros [r' [M' Q]]; now rewrite (multipart_unique M M')]]|].
    + eapply does_each with (D := fun d e => (d = NoBoundary /\ e = Said w 1139 []) \/ (d = NoStart /\ e = Said w 1140 [])). intros d _.
      destruct d; (eapply does_to; [first [apply does_say|apply does_ret; exact Logic.I]|]); intro x; unfold nothing; split; intro; split_up; auto; discriminate.
    + intro x. unfold rules_multipart. cbn [due]. unfold due_by, plain, about, nothing. cbn [r_who r_id r_due]. split.
      * intros [[d [I [[-> ->]|[-> ->]]]]|[]]; dig.
      * intros [[ctx [-> [-> [r' [M' I]]]]]|[[ctx [-> [-> [r' [M' I]]]]]|[]]]; rewrite <- (multipart_unique M M') in I; left; eexists; (split; [exact I|]); auto.
  - intro N. apply does_ret. intro ps. split; [discriminate|]. intros [r [M _]]. destruct (N (PM r M)).
  - intro e. unfold nothing. split; [tauto|]. intro H. right. left. split; [|exact H]. destruct (DM e H) as [r M]. exact (PM r M).
Qed.
Lemma good_iff c : url_encoded_good c = true <-> form_char c.
Proof.
  unfold url_encoded_good, form_char. rewrite !orb_true_iff, existsb_exists. split.
  - intros [[[[x [I H]]|H]|H]|H]; [left; apply N.eqb_eq in H; now subst|right; left|right; right; left|right; right; right]; lia.
  - intros [H|[H|[H|H]]]; [left; left; left; exists c; split; [exact H|apply N.eqb_refl]|left; left; right|left; right|right]; lia.
Qed.
Lemma find_bad x : match find (fun c => negb (url_encoded_good c)) x with
  | Some c => exists a b, x = a ++ c :: b /\ (forall y, In y a -> form_char y) /\ ~ form_char c
  | None => forall y, In y x -> form_char y
  end.
Proof.
  induction x as [|c x IH]; cbn [find]; [intros y []|]. pose proof (good_iff c) as G. destruct (url_encoded_good c) eqn:Q; cbn [negb].
  - assert (F : form_char c) by tauto. destruct (find _ x) as [d|].
    + destruct IH as [a [b [-> [A B]]]]. exists (c :: a), b. split; [reflexivity|]. split; [|exact B]. intros y [<-|I]; auto.
    + intros y [<-|I]; auto.
  - exists [], x. split; [reflexivity|]. split; [intros y []|]. intro F. apply G in F. discriminate F.
Qed.
Lemma first_bad a c b a' c' b' : a ++ c :: b = a' ++ c' :: b' -> (forall x, In x a -> form_char x) -> ~ form_char c -> (forall x, In x a' -> form_char x) -> ~ form_char c' -> c = c'.
Proof.
  revert a'. induction a as [|x a IH]; intros [|y a'] Q A N A' N'; cbn [app] in Q; injection Q as Q R.
  - exact Q.
  - subst. destruct (N (A' _ (or_introl eq_refl))).
  - subst. destruct (N' (A _ (or_introl eq_refl))).
  - eapply IH; eauto using in_cons.
Qed.
Definition form_is_keys (o : option (list str)) : Prop := forall keys, o = Some keys <-> form_keys E j keys.
Lemma form_text_unique t t' : form_text E j t -> form_text E j t' -> t = t'.
Proof. intros [_ [_ D]] [_ [_ D']]. pose proof (decoded_to_unique D D') as Q. now injection Q. Qed.
Lemma form_keys_unique k k' : form_keys E j k -> form_keys E j k' -> k = k'.
Proof. intros [t [F [_ K]]] [t' [F' [_ K']]]. rewrite (form_text_unique F' F) in K'. congruence. Qed.
Lemma form_follows : does E W (url_encoded_data j) (due (rules_form E j)) form_is_keys.
Proof.
  unfold url_encoded_data. set (P := equals E m "Content-Type" (const "MediaType" "application/x-www-form-urlencoded") /\ (exists b, decoded_to E m b /\ readable b) /\ full E j).
  assert (T : tests E W (is_equal j "Content-Type" (const "MediaType" "application/x-www-form-urlencoded") &? (b <- decoded_body j ;; ret (okay_value b)) &? content_is_full j) P).
  { apply tests_and; [test|intros _]. apply tests_and; [exact tests_decoded|intros _; exact tests_full]. }
  assert (PM : forall t, form_text E j t -> P).
  { intros t [c [f D]]. split; [exact c|]. split; [|exact f]. exists (VBytes t). split; [exact D|apply readable_bytes]. }
  assert (DM : forall e, due (rules_form E j) e -> exists t, form_text E j t).
  { intro e. unfold rules_form. cbn [due]. unfold due_by, plain, about. cbn [r_who r_id r_due]. intro. split_up; eauto. }
  eapply does_to; [eapply does_ifM with (Da := due (rules_form E j)) (Db := nothing); [exact T| |]|].
  - intros [c [_ f]]. eapply does_any; [exact gets_decoded|]. intros b B. apply bytes_match. intros t ->.
    assert (F : form_text E j t) by (split; [exact c|split; [exact f|exact B]]). pose proof (find_bad t) as X.
    destruct (find _ t) as [d|].
    + destruct X as [a [b [-> [A N]]]]. eapply does_to; [eapply does_then with (D' := nothing); [apply does_say|apply does_ret]|].
      * intro keys. split; [discriminate|]. intros [t' [F' [G _]]]. rewrite (form_text_unique F' F) in G. destruct N. apply G. apply in_or_app. right. now left.
      * intro x. unfold rules_form. cbn [due]. unfold due_by, plain, about, nothing. cbn [r_who r_id r_due]. split.
        { intros [->|[]]. left. eexists. split; [reflexivity|]. exists a, d, b. auto. }
        { intros [[ctx [-> [a' [c' [b' [F' [A' [N' ->]]]]]]]]|[]]. left. rewrite (first_bad (form_text_unique F' F) A' N' A N). reflexivity. }
    + eapply does_to with (D := nothing).
      * eapply returns_bind; [apply does_ask|]. intros ? ->. eapply returns_bind; [apply does_result|]. intros keys K. apply does_ret. intro keys'. split.
        { intro Q. injection Q as <-. exists t. auto. }
        { intro K'. f_equal. eapply form_keys_unique; [|exact K']. exists t. auto. }
      * intro x. unfold rules_form. cbn [due]. unfold due_by, plain, about, nothing. cbn [r_who r_id r_due]. split; [intros []|].
        intros [[ctx [-> [a' [c' [b' [F' [A' [N' ->]]]]]]]]|[]]. apply N'. apply X. rewrite (form_text_unique F F'). apply in_or_app. right. now left.
  - intro N. apply does_ret. intro ps. split; [discriminate|]. intros [t [F _]]. destruct (N (PM t F)).
  - intro e. unfold nothing. split; [tauto|]. intro H. right. left. split; [|exact H]. destruct (DM e H) as [r M]. exact (PM r M).
Qed.
Lemma payload : follows (check_payload j) (rules_payload E j).
Proof.
  eapply does_to.
  - unfold check_payload. eapply does_after; [exact does_decoded|]. eapply does_after; [exact gets_unicode|]. eapply does_after; [exact json_follows|].
    eapply does_then; [exact xml_follows|]. eapply does_after; [exact multipart_follows|]. eapply does_after; [exact form_follows|]. apply does_ret. exact Logic.I.
  - intro e. unfold rules_payload, nothing. rewrite !due_app. tauto.
Qed.
End Payload.
