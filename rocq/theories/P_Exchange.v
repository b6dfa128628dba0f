(** C30, C32: scope of HTTPolice-Silence; order of responses. *)
From Coq Require Import ZifyBool ZifyNat ZifyN String.
From Verif Require Import Base Earley Grammar Syntax Actions Nested P_Types Text Structure Known Tables Header P_Header P_Views Values Notices ChecksBase ChecksLogic ChecksViews ChecksMessage ChecksRequest ChecksResponse ChecksSays ChecksTop ChecksExchange ChecksExample.
Open Scope nat_scope.
Open Scope list_scope.
Unset Strict Implicit.
Local Open Scope string_scope.
Local Open Scope list_scope.

(** ** Specification *)

(** What [check_exchange] reported before it returned or raised, and whether it
    returned. *)
Definition said (E : env) (x : exchange) (w : who) (id : N) (ctx : list (str * carg)) : Prop := In (Said w id ctx) (fst (check_exchange x E)).
Definition silenced (E : env) (x : exchange) (w : who) (id : N) : Prop := exists ids, In (Silenced w ids) (fst (check_exchange x E)) /\ In id ids.
Definition finished (E : env) (x : exchange) : Prop := snd (check_exchange x E) = Ok tt.

(** Response [i] of the exchange. *)
Definition response_at (x : exchange) (i : nat) (p : response) : Prop := nth_error (x_responses x) i = Some p.
Definition final_at (x : exchange) (i : nat) : Prop := exists p, response_at x i p /\ ~ (100 <= p_status p <= 199)%Z.
(** [i] is the first final response. *)
Definition first_final (x : exchange) (i : nat) : Prop := final_at x i /\ forall k, k < i -> ~ final_at x k.
(** The request has [Expect: 100-continue], in any case. *)
Definition expects_continue (E : env) (q : request) : Prop :=
  exists v t, view_is (e_read E) (m_entries (q_msg q)) (s "Expect") v /\ v_value v = VObj (s "CaseInsensitive") [VStr t] /\ P_Header.same_name t (s "100-continue").
(** A message's HTTPolice-Silence header has an element with this number, with
    or without [resp]. *)
Definition silences (E : env) (m : msg) (id : N) (resp : bool) : Prop :=
  exists v l z flag, view_is (e_read E) (m_entries m) (s "HTTPolice-Silence") v /\ v_value v = VList l /\
  In (VTuple [VInt z; flag]) l /\ (0 <= z)%Z /\ id = Z.to_N z /\ (if resp then flag = VBool true else flag = VBool false \/ flag = VNone).

(** ** Proofs *)

Lemma bind_in {A B} (m : M A) (f : A -> M B) E e : In e (fst (bind m f E)) <-> In e (fst (m E)) \/ exists v, snd (m E) = Ok v /\ In e (fst (f v E)).
Proof.
  unfold bind. destruct (m E) as [es [v|x]]; cbn [fst snd].
  - destruct (f v E) as [es' r] eqn:F. cbn [fst]. rewrite in_app_iff. split; (intros [H|H]; [now left|right]).
    + exists v. split; [reflexivity|]. now rewrite F.
    + destruct H as [v' [V H]]. injection V as <-. now rewrite F in H.
  - split; [auto|]. intros [H|[v [V _]]]; [exact H|discriminate V].
Qed.
Lemma bind_done {A B} (m : M A) (f : A -> M B) E r : snd (bind m f E) = Ok r <-> exists v, snd (m E) = Ok v /\ snd (f v E) = Ok r.
Proof.
  unfold bind. destruct (m E) as [es [v|x]]; cbn [fst snd].
  - destruct (f v E) as [es' r'] eqn:F. cbn [snd]. split; [intros ->; exists v; now rewrite F|]. intros [v' [V H]]. injection V as <-. now rewrite F in H.
  - split; [discriminate|]. intros [v [V _]]. discriminate V.
Qed.

Section Proofs.
Variable E : env.
Hypothesis http : parses_http (e_read E).

Lemma no_1304_request : all_lack 1304 request_tables = true. Proof. vm_compute. reflexivity. Qed.
Lemma no_1304_response : forallb (fun e => all_lack2 1304 (response_tables e ++ context_tables e)) [true; false] = true. Proof. vm_compute. reflexivity. Qed.
Lemma no_1305_request : all_lack 1305 request_tables = true. Proof. vm_compute. reflexivity. Qed.
Lemma no_1305_response : forallb (fun e => all_lack2 1305 (response_tables e ++ context_tables e)) [true; false] = true. Proof. vm_compute. reflexivity. Qed.
Lemma both_lack id p : forallb (fun e => all_lack2 id (response_tables e ++ context_tables e)) [true; false] = true -> all_lack2 id (tables_of p) = true.
Proof. intro H. apply (proj1 (forallb_forall _ _) H). destruct (p_status p =? 103)%Z; cbn [In]; auto. Qed.

(** *** 1304 *)
Definition informative (l : list response) (k : nat) : Prop := forall i p, i < k -> nth_error l i = Some p -> informational (p_status p) = true.
Lemma from_1304 req w ctx l : forall n final,
  In (Said w 1304 ctx) (fst (check_responses_from req n final l E)) -> exists i f, w = Resp (n + i) /\ i < List.length l /\ ctx = [(s "previous", CResponse f)] /\
    (final = Some f \/ final = None /\ exists k p, f = n + k /\ k < i /\ nth_error l k = Some p /\ informational (p_status p) = false /\ informative l k).
Proof.
  induction l as [|p l IH]; intros n final H; [destruct H|]. cbn [check_responses_from] in H. apply bind_in in H. destruct H as [H|[v [_ H]]].
  { destruct final as [f|]; [|destruct H]. destruct H as [H|[]]. injection H as <- <-. exists 0, f. rewrite Nat.add_0_r. cbn [List.length]. repeat split; auto; lia. }
  apply bind_in in H. destruct H as [H|[v' [_ H]]]; [exfalso; revert H; apply never_on_response; [exact http|apply both_lack, no_1304_response]|].
  apply IH in H. destruct H as [i [f [-> [L [-> H]]]]]. exists (S i), f. split; [f_equal; lia|]. split; [cbn [List.length]; lia|]. split; [reflexivity|].
  destruct final as [f'|]; [destruct H as [H|[H _]]; [now left|discriminate H]|]. right. split; [reflexivity|]. destruct (informational (p_status p)) eqn:I.
  - destruct H as [H|[_ [k [p' [-> [K [N [J A]]]]]]]]; [discriminate H|]. exists (S k), p'. split; [lia|]. split; [lia|]. split; [exact N|]. split; [exact J|].
    intros [|k'] p'' L' N'; [cbn in N'; injection N' as <-; exact I|]. cbn [nth_error] in N'. apply (A k'); [lia|exact N'].
  - destruct H as [H|[H _]]; [|discriminate H]. injection H as <-. exists 0, p. split; [lia|]. split; [lia|]. split; [reflexivity|]. split; [exact I|]. intros k' p'' L'. lia.
Qed.
Lemma from_1304_back req l : forall n final, snd (check_responses_from req n final l E) = Ok tt -> forall i f, i < List.length l ->
  (final = Some f \/ final = None /\ exists k p, f = n + k /\ k < i /\ nth_error l k = Some p /\ informational (p_status p) = false /\ informative l k) ->
  In (Said (Resp (n + i)) 1304 [(s "previous", CResponse f)]) (fst (check_responses_from req n final l E)).
Proof.
  induction l as [|p l IH]; intros n final D i f L H; [cbn in L; lia|]. cbn [check_responses_from] in D |- *. apply bind_done in D. destruct D as [[] [D1 D]].
  apply bind_in. destruct i as [|i].
  { left. destruct H as [->|[_ [k [_ [_ [K _]]]]]]; [|lia]. rewrite Nat.add_0_r. now left. }
  right. exists tt. split; [exact D1|]. apply bind_done in D. destruct D as [[] [D2 D]]. apply bind_in. right. exists tt. split; [exact D2|].
  replace (n + S i) with (S n + i) by lia. apply IH; [exact D|cbn [List.length] in L; lia|]. destruct H as [->|[-> [k [p' [-> [K [N [J A]]]]]]]]; [now left|].
  destruct k as [|k].
  - cbn in N. injection N as ->. rewrite J. left. f_equal. lia.
  - rewrite (A 0 p ltac:(lia) eq_refl). right. split; [reflexivity|]. exists k, p'. split; [lia|]. split; [lia|]. split; [exact N|]. split; [exact J|].
    intros k' p'' L' N'. apply (A (S k')); [lia|exact N'].
Qed.
(** *** 1305 *)
Lemma continue_said e w id ctx l : forall n, In (Said w id ctx) (fst (check_continue e n l E)) -> e = true /\ id = 1305%N /\ ctx = [] /\
  exists i p, w = Resp (n + i) /\ nth_error l i = Some p /\ p_status p = 101%Z /\ forall k p', k <= i -> nth_error l k = Some p' -> p_status p' <> 100%Z.
Proof.
  revert e. induction l as [|p l IH]; intros e n H; [destruct H|]. cbn [check_continue] in H. apply bind_in in H. destruct H as [H|[v [_ H]]].
  - destruct (e && negb (p_status p =? 100)%Z && (p_status p =? 101)%Z) eqn:Q; [|destruct H]. destruct H as [H|[]]. injection H as <- <- <-.
    apply andb_true_iff in Q. destruct Q as [Q1 Q2]. apply andb_true_iff in Q1. destruct Q1 as [-> Q1]. repeat split. exists 0, p. split; [f_equal; lia|]. split; [reflexivity|]. split; [lia|].
    intros [|k] p' K N; [|lia]. cbn in N. injection N as <-. lia.
  - apply IH in H. destruct H as [Q [-> [-> [i [p' [-> [N [St A]]]]]]]]. apply andb_true_iff in Q. destruct Q as [-> Q]. repeat split. exists (S i), p'. split; [f_equal; lia|].
    split; [exact N|]. split; [exact St|]. intros [|k] p'' K N'; [cbn in N'; injection N' as <-; lia|]. apply (A k); [lia|exact N'].
Qed.
Lemma continue_back l : forall n i p, nth_error l i = Some p -> p_status p = 101%Z -> (forall k p', k <= i -> nth_error l k = Some p' -> p_status p' <> 100%Z) ->
  In (Said (Resp (n + i)) 1305 []) (fst (check_continue true n l E)).
Proof.
  induction l as [|p l IH]; intros n i p' N S A; [destruct i; discriminate N|]. cbn [check_continue].
  assert (Q : (p_status p =? 100)%Z = false) by (apply Z.eqb_neq; apply (A 0); [lia|reflexivity]). rewrite Q. cbn [negb andb]. apply bind_in. destruct i as [|i].
  - cbn in N. injection N as ->. rewrite S. left. rewrite Nat.add_0_r. now left.
  - right. exists tt. split; [destruct (p_status p =? 101)%Z; reflexivity|]. replace (n + Datatypes.S i) with (Datatypes.S n + i) by lia. apply (IH _ _ p'); [exact N|exact S|].
    intros k p'' K N'. apply (A (Datatypes.S k)); [lia|exact N'].
Qed.
Lemma informational_iff z : informational z = true <-> (100 <= z <= 199)%Z.
Proof. unfold informational, between. lia. Qed.

(** *** Expect *)
Lemma expect_shape : view_shape "Expect" P_Types.ci = OneOf [P_Types.ci; Unread; Nothing].
Proof. vm_compute. reflexivity. Qed.
Lemma expect_listed : In ("Expect", P_Types.ci) value_shapes.
Proof. unfold value_shapes. repeat (first [left; reflexivity|right]). Qed.
Lemma veq_word c t u : is_tuple_class c = false -> str_eqb c (s "MultiDict") = false -> mem_class c ci_classes = true -> veq (VObj c [VStr t]) (VStr u) = ci_eq t u.
Proof. intros A B C. cbn [veq peel]. rewrite A, B. unfold scalar_eq. cbn [str_like]. rewrite C. reflexivity. Qed.
Lemma expect_iff q b : snd (is_equal (of_request q) "Expect" (VStr (s "100-continue")) E) = Ok b -> (b = true <-> expects_continue E q).
Proof.
  unfold is_equal. intro H. apply bind_done in H. destruct H as [v [V H]]. apply view_got in V. cbn [of_request j_msg] in V. unfold ret in H. cbn [snd] in H.
  assert (Hb : b = is_okay v && okay_value (VStr (s "100-continue")) && veq (v_value v) (VStr (s "100-continue"))) by congruence. clear H. subst b.
  pose proof (view_fits http expect_listed V) as F. rewrite expect_shape in F. apply one_of_in in F. destruct F as [y [I F]]. unfold is_okay.
  assert (X : forall t, veq (VObj (s "CaseInsensitive") [VStr t]) (VStr (s "100-continue")) = ci_eq t (s "100-continue")) by (intro t; apply veq_word; vm_compute; reflexivity).
  destruct I as [<-|[<-|[<-|[]]]].
  - destruct F as [vs [F G]]. cbn [map each] in G. destruct vs as [|u vs]; [destruct G|]. destruct G as [[t [-> NE]] G]. destruct vs; [|destruct G]. rewrite F. cbn [okay_value andb]. rewrite X. split.
    + intro H. exists v, t. split; [exact V|]. split; [exact F|]. apply same_name_lower. unfold ci_eq in H. now apply str_eqb_eq in H.
    + intros [v' [t' [V' [F' S']]]]. rewrite (view_unique V V') in F. rewrite F' in F. injection F as ->. unfold ci_eq. apply str_eqb_eq. now apply same_name_lower.
  - destruct F as [u F]. rewrite F. cbn [okay_value andb]. split; [discriminate|]. intros [v' [t' [V' [F' _]]]]. rewrite (view_unique V V') in F. congruence.
  - rewrite F. cbn [okay_value andb]. split; [discriminate|]. intros [v' [t' [V' [F' _]]]]. rewrite (view_unique V V') in F. congruence.
Qed.

Lemma view_only_said e j name : In e (fst (view j name E)) -> exists w id ctx, e = Said w id ctx.
Proof. destruct (view_run E j name) as [v [V ->]]. destruct (has_bad _); cbn [fst]; [intros []|]. intro I. apply in_map_iff in I. destruct I as [n [<- _]]. unfold lift. eauto. Qed.
(** What happens in an exchange. *)
Lemma exchange_said x w id ctx : (id = 1304 \/ id = 1305)%N -> said E x w id ctx <->
  exists b, (match x_request x with Some q => (check_request q ;;; is_equal (of_request q) "Expect" (VStr (s "100-continue"))) | None => ret false end) E = (fst ((match x_request x with Some q => (check_request q ;;; is_equal (of_request q) "Expect" (VStr (s "100-continue"))) | None => ret false end) E), Ok b) /\
   (In (Said w id ctx) (fst (check_responses_from (x_request x) 0 None (x_responses x) E)) \/
   snd (check_responses_from (x_request x) 0 None (x_responses x) E) = Ok tt /\ In (Said w id ctx) (fst (check_continue b 0 (x_responses x) E))).
Proof.
  intro D. unfold said, check_exchange. rewrite bind_in. set (m := match x_request x with Some q => _ | None => _ end).
  assert (N : ~ In (Said w id ctx) (fst (m E))).
  { unfold m. destruct (x_request x) as [q|]; [|intros []]. rewrite bind_in. intros [H|[v [_ H]]].
    - revert H. apply never_on_request; [exact http|]. destruct D as [-> | ->]; [exact no_1304_request|exact no_1305_request].
    - unfold is_equal in H. apply bind_in in H. destruct H as [H|[v' [_ H]]]; [|destruct H].
      assert (Q : emits E (other id) (view (of_request q) (s "Expect"))) by (eapply view_says with (t := []); apply lacks_hears; [exact http|]; destruct D as [-> | ->]; vm_compute; reflexivity).
      unfold emits in Q. rewrite Forall_forall in Q. exact (Q _ H eq_refl). }
  split.
  - intros [H|[b [B H]]]; [destruct (N H)|]. exists b. split; [destruct (m E); cbn [fst snd] in *; now subst|]. apply bind_in in H. destruct H as [H|[[] [B' H]]]; auto.
  - intros [b [B H]]. right. exists b. split; [destruct (m E); cbn [fst snd] in *; congruence|]. apply bind_in. destruct H as [H|[B' H]]; eauto.
Qed.
End Proofs.

Lemma no_1305_from E req w ctx l : parses_http (e_read E) -> forall n final, ~ In (Said w 1305 ctx) (fst (check_responses_from req n final l E)).
Proof.
  intro http. induction l as [|p l IH]; intros n final H; [destruct H|]. cbn [check_responses_from] in H. apply bind_in in H. destruct H as [H|[v [_ H]]].
  - destruct final as [f|]; [|destruct H]. destruct H as [H|[]]. discriminate H.
  - apply bind_in in H. destruct H as [H|[v' [_ H]]]; [|exact (IH _ _ H)]. revert H. apply never_on_response; [exact http|apply both_lack, no_1305_response].
Qed.

Lemma first_final_iff x f : first_final x f <-> exists p, nth_error (x_responses x) f = Some p /\ informational (p_status p) = false /\ informative (x_responses x) f.
Proof.
  unfold first_final, final_at, response_at, informative. split.
  - intros [[p [N F]] A]. exists p. split; [exact N|]. split; [apply not_true_iff_false; now rewrite informational_iff|]. intros i p' L N'.
    destruct (informational (p_status p')) eqn:Q; [reflexivity|]. exfalso. apply (A i L). exists p'. split; [exact N'|]. rewrite <- informational_iff. now rewrite Q.
  - intros [p [N [F A]]]. split; [exists p; split; [exact N|rewrite <- informational_iff; now rewrite F]|]. intros k L [p' [N' F']]. apply F'. apply informational_iff. exact (A k p' L N').
Qed.

(** C32.  Notice 1304 is reported on every response after the first final one,
    which it names, and on nothing else. *)
Theorem C32_final : forall E x w ctx, parses_http (e_read E) -> finished E x ->
  (said E x w 1304 ctx <-> exists i f, w = Resp i /\ i < List.length (x_responses x) /\ first_final x f /\ f < i /\ ctx = [(s "previous", CResponse f)]).
Proof.
  intros E x w ctx http D. rewrite (exchange_said http) by now left. split.
  - intros [b [_ [H|[_ H]]]].
    + apply (from_1304 http) in H. destruct H as [i [f [-> [L [-> H]]]]]. destruct H as [H|[_ [k [p [-> [K [N [I A]]]]]]]]; [discriminate H|].
      exists i, k. repeat split; auto; apply first_final_iff; eauto.
    + apply continue_said in H. destruct H as [_ [H _]]. discriminate H.
  - intros [i [f [-> [L [F [K ->]]]]]]. unfold finished, check_exchange in D. apply bind_done in D. destruct D as [b [B D]]. exists b.
    split; [match goal with |- ?m = (fst ?m, _) => destruct m; cbn [fst snd] in *; now subst end|]. left. apply bind_done in D. destruct D as [[] [D _]].
    apply first_final_iff in F. destruct F as [p [N [I A]]]. apply (from_1304_back D L). right. split; [reflexivity|]. exists f, p. auto.
Qed.
Print Assumptions C32_final.
(** Also when a check raised, 1304 is only reported on responses after the
    first final one. *)
Theorem C32_final_only : forall E x w ctx, parses_http (e_read E) -> said E x w 1304 ctx ->
  exists i f, w = Resp i /\ i < List.length (x_responses x) /\ first_final x f /\ f < i.
Proof.
  intros E x w ctx http H. rewrite (exchange_said http) in H by now left. destruct H as [b [_ [H|[_ H]]]].
  + apply (from_1304 http) in H. destruct H as [i [f [-> [L [-> H]]]]]. destruct H as [H|[_ [k [p [-> [K [N [I A]]]]]]]]; [discriminate H|].
    exists i, k. repeat split; auto; apply first_final_iff; eauto.
  + apply continue_said in H. destruct H as [_ [H _]]. discriminate H.
Qed.
Print Assumptions C32_final_only.
(** C32.  Notice 1305 is reported exactly on responses 101 to requests that
    expect 100, before any 100. *)
Theorem C32_continue : forall E x w ctx, parses_http (e_read E) -> finished E x ->
  (said E x w 1305 ctx <-> exists i p q, w = Resp i /\ ctx = [] /\ response_at x i p /\ p_status p = 101%Z /\ x_request x = Some q /\ expects_continue E q /\
     forall k p', k < i -> response_at x k p' -> p_status p' <> 100%Z).
Proof.
  intros E x w ctx http D. rewrite (exchange_said http) by now right. unfold finished, check_exchange in D. apply bind_done in D. destruct D as [b [B D]]. apply bind_done in D. destruct D as [[] [D _]].
  unfold response_at. split.
  - intros [b' [B' [H|[_ H]]]]; [destruct (no_1305_from http H)|]. assert (b' = b) by (rewrite B' in B; cbn [snd] in B; congruence). subst b'.
    apply continue_said in H. destruct H as [-> [_ [-> [i [p [-> [N [St A]]]]]]]]. destruct (x_request x) as [q|]; [|discriminate B]. apply bind_done in B. destruct B as [[] [_ B]].
    exists i, p, q. repeat split; auto; [apply (expect_iff http) in B; now apply B|]. intros k p' K. apply A. lia.
  - intros [i [p [q [-> [-> [N [St [R [X A]]]]]]]]]. rewrite R in *. assert (b = true) by (apply bind_done in B; destruct B as [[] [_ B]]; apply (expect_iff http) in B; now apply B). subst b.
    exists true. split; [match goal with |- ?m = (fst ?m, _) => destruct m; cbn [fst snd] in *; now subst end|]. right. split; [exact D|]. apply (continue_back E 0 N St).
    intros k p' K N'. destruct (Nat.eq_dec k i) as [->|]; [rewrite N in N'; injection N' as <-; rewrite St; discriminate|]. apply (A k); [lia|exact N'].
Qed.
Print Assumptions C32_continue.

(** *** Silence *)

Section Silence.
Variable E : env.
Hypothesis http : parses_http (e_read E).
Definition silence_shape : shape := Many (Tuple [Whole; OneOf [P_Types.Truth; Nothing]]).
Lemma silence_view_shape : view_shape "HTTPolice-Silence" silence_shape = OneOf [Many (OneOf [Unread; Tuple [Whole; OneOf [P_Types.Truth; Nothing]]])].
Proof. vm_compute. reflexivity. Qed.
Lemma silence_listed : In ("HTTPolice-Silence", silence_shape) value_shapes.
Proof. unfold value_shapes, silence_shape. repeat (first [left; reflexivity|right]). Qed.
Lemma silence_not_link : ~ P_Header.same_name (s "HTTPolice-Silence") (s "Link").
Proof. rewrite same_name_lower. vm_compute. discriminate. Qed.
Lemma silence_multi : is_single (s "HTTPolice-Silence") = false.
Proof. vm_compute. reflexivity. Qed.

Definition numbered (v : val) : Prop := exists z flag, v = VTuple [VInt z; flag] /\ (0 <= z)%Z /\ ((exists b, flag = VBool b) \/ flag = VNone).
Lemma silence_ids_run keep l : Forall numbered l -> exists ids, silence_ids keep l E = ([], Ok ids) /\
  forall id, In id ids <-> exists z flag, In (VTuple [VInt z; flag]) l /\ id = Z.to_N z /\ keep flag = true.
Proof.
  intro F. unfold silence_ids.
  assert (Q : exists r, mapM (fun v => p <- some_of (unpack2 v) ;; match fst p with VInt z => ret (Z.to_N z, keep (snd p)) | _ => raise Mistake end) l E = ([], Ok r) /\
    forall id b, In (id, b) r <-> exists z flag, In (VTuple [VInt z; flag]) l /\ id = Z.to_N z /\ keep flag = b).
  { induction F as [|v l [z [flag [-> [Z0 G]]]] F IH]; [exists []; split; [reflexivity|]; intros; split; [intros []|intros [? [? [[] _]]]]|].
    destruct IH as [r [R S]]. exists ((Z.to_N z, keep flag) :: r). split; [cbn [mapM]; apply bind_ok; exists (Z.to_N z, keep flag), [], []; split; [reflexivity|]; split; [|reflexivity]; apply bind_ok; exists r, [], []; auto|].
    intros id b. cbn [In]. rewrite S. split.
    - intros [H|[z' [flag' [I H]]]]; [injection H as <- <-; exists z, flag; auto|exists z', flag'; auto].
    - intros [z' [flag' [[H|I] [-> K]]]]; [injection H as <- <-; left; now rewrite K|right; exists z', flag'; auto]. }
  destruct Q as [r [R S]]. exists (map fst (filter snd r)). split; [apply bind_ok; exists r, [], []; auto|].
  intro id. rewrite in_map_iff. split.
  - intros [[id' b] [<- I]]. apply filter_In in I. destruct I as [I B]. cbn [fst snd] in *. apply S in I. rewrite B in I. exact I.
  - intros H. exists (id, true). split; [reflexivity|]. apply filter_In. split; [now apply S|reflexivity].
Qed.
Lemma silencing_run j j' keep : exists v l ids es, view_is (e_read E) (m_entries (j_msg j)) (s "HTTPolice-Silence") v /\ v_value v = VList l /\
  (l <- items j "HTTPolice-Silence" ;; ids <- silence_ids keep l ;; silence j' ids) E = (es ++ [Silenced (j_who j') ids], Ok tt) /\
  (forall e, In e es -> exists w id ctx, e = Said w id ctx) /\
  forall id, In id ids <-> exists z flag, In (VTuple [VInt z; flag]) l /\ (0 <= z)%Z /\ ((exists b, flag = VBool b) \/ flag = VNone) /\ id = Z.to_N z /\ keep flag = true.
Proof.
  destruct (view_calm http j silence_not_link) as [v [V R]]. pose proof (view_fits http silence_listed V) as F. rewrite silence_view_shape in F.
  apply one_of_in in F. destruct F as [y [[<-|[]] [l [L F]]]].
  assert (N : Forall numbered (filter okay_value l)).
  { apply Forall_forall. intros u I. apply filter_In in I. destruct I as [I O]. rewrite Forall_forall in F. specialize (F u I). apply one_of_in in F. destruct F as [y [[<-|[<-|[]]] F]].
    - destruct F as [w ->]. discriminate O.
    - destruct F as [vs [-> G]]. cbn [map each] in G. destruct vs as [|v1 vs]; [destruct G|]. destruct G as [[z [-> Z0]] G]. destruct vs as [|v2 vs]; [destruct G|]. destruct G as [G1 G]. destruct vs; [|destruct G].
      exists z, v2. split; [reflexivity|]. split; [exact Z0|]. apply one_of_in in G1. destruct G1 as [y [[<-|[<-|[]]] G1]]; [left|right]; exact G1. }
  destruct (silence_ids_run keep N) as [ids [S I]]. exists v, l, ids, (map (lift (j_who j)) (v_notices v)). split; [exact V|]. split; [exact L|]. split; [|split].
  - assert (IT : items j "HTTPolice-Silence" E = (map (lift (j_who j)) (v_notices v), Ok (filter okay_value l))).
    { unfold items. apply bind_ok. exists (v_value v), (map (lift (j_who j)) (v_notices v)), []. split; [|split; [|now rewrite app_nil_r]].
      - unfold ChecksBase.value. apply bind_ok. exists v, (map (lift (j_who j)) (v_notices v)), []. rewrite R. split; [reflexivity|]. split; [reflexivity|now rewrite app_nil_r].
      - rewrite L, silence_multi. reflexivity. }
    apply bind_ok. exists (filter okay_value l), (map (lift (j_who j)) (v_notices v)), [Silenced (j_who j') ids]. split; [exact IT|]. split; [|reflexivity].
    apply bind_ok. exists ids, [], [Silenced (j_who j') ids]. split; [exact S|]. split; reflexivity.
  - intros e J. apply in_map_iff in J. destruct J as [n [<- _]]. unfold lift. eauto.
  - intro id. rewrite I. split; intros [z [flag [J H]]]; exists z, flag.
    + rewrite Forall_forall in N. destruct (N _ J) as [z' [flag' [Q [Z0 G]]]]. injection Q as <- <-. apply filter_In in J. destruct J. destruct H. auto 6.
    + destruct H as [_ [_ H]]. split; [apply filter_In; split; [exact J|reflexivity]|exact H].
Qed.
End Silence.

Section Scope.
Variable E : env.
Hypothesis http : parses_http (e_read E).
Definition quiet (e : event) : Prop := match e with Said _ _ _ => True | Silenced _ _ => False end.
Lemma hears_quiet w g t : hears E quiet w g t.
Proof. split; [intros name c m _ _|intros id ctx _]; exact I. Qed.
Lemma emits_quiet {A} (m : M A) w ids : emits E quiet m -> ~ In (Silenced w ids) (fst (m E)).
Proof. unfold emits. rewrite Forall_forall. intros H J. exact (H _ J). Qed.
Lemma seq_first m l w ids : snd (m E) = Ok tt -> (forall m', In m' l -> emits E quiet m') -> (In (Silenced w ids) (fst (seq (m :: l) E)) <-> In (Silenced w ids) (fst (m E))).
Proof.
  intros D Q. unfold seq. cbn [for_each]. rewrite bind_in. split; [|auto]. intros [H|[v [_ H]]]; [exact H|]. exfalso. revert H. apply emits_quiet. apply emits_each. exact Q.
Qed.

Definition named (m : msg) (id : N) (keep : val -> bool) : Prop :=
  exists v l z flag, view_is (e_read E) (m_entries m) (s "HTTPolice-Silence") v /\ v_value v = VList l /\ In (VTuple [VInt z; flag]) l /\ (0 <= z)%Z /\
  ((exists b, flag = VBool b) \/ flag = VNone) /\ id = Z.to_N z /\ keep flag = true.
Lemma silencing_in j j' keep w id : (exists ids, In (Silenced w ids) (fst ((l <- items j "HTTPolice-Silence" ;; ids <- silence_ids keep l ;; silence j' ids) E)) /\ In id ids) <->
  w = j_who j' /\ named (j_msg j) id keep.
Proof.
  destruct (silencing_run http j j' keep) as [v [l [ids [es [V [L [R [Q I]]]]]]]]. rewrite R. cbn [fst]. split.
  - intros [ids' [H J]]. apply in_app_iff in H. destruct H as [H|[H|[]]]; [destruct (Q _ H) as [? [? [? H']]]; discriminate H'|]. injection H as <- <-. split; [reflexivity|].
    apply I in J. destruct J as [z [flag [J K]]]. exists v, l, z, flag. intuition.
  - intros [-> [v' [l' [z [flag [V' [L' [J K]]]]]]]]. rewrite (view_unique V' V) in L'. rewrite L in L'. injection L' as <-. exists ids. split; [apply in_app_iff; right; now left|]. apply I. exists z, flag. intuition.
Qed.
Lemma silencing_done j j' keep : snd ((l <- items j "HTTPolice-Silence" ;; ids <- silence_ids keep l ;; silence j' ids) E) = Ok tt.
Proof. destruct (silencing_run http j j' keep) as [v [l [ids [es [V [L [R [Q I]]]]]]]]. now rewrite R. Qed.

Lemma request_silences q w id : (exists ids, In (Silenced w ids) (fst (check_request q E)) /\ In id ids) <-> w = Req /\ named (q_msg q) id (fun v => negb (truthy_val v)).
Proof.
  rewrite <- (silencing_in (of_request q) (of_request q)). unfold check_request. change (request_checks q) with (silence_own q :: tl (request_checks q)).
  assert (S : forall ids, In (Silenced w ids) (fst (seq (silence_own q :: tl (request_checks q)) E)) <-> In (Silenced w ids) (fst (silence_own q E))).
  { intro ids. apply seq_first; [apply silencing_done|]. apply (follows_all (request_follows http q)). apply Forall_forall. intros. apply hears_quiet. }
  split; intros [ids [H J]]; exists ids; (split; [|exact J]); [exact (proj1 (S ids) H)|exact (proj2 (S ids) H)].
Qed.
Lemma response_silences n p req w id : (exists ids, In (Silenced w ids) (fst (check_response n p req E)) /\ In id ids) <->
  w = Resp n /\ (named (p_msg p) id (fun _ => true) \/ snd (check_response_itself n p req E) = Ok tt /\ exists q, req = Some q /\ named (q_msg q) id truthy_val).
Proof.
  assert (S1 : forall ids, In (Silenced w ids) (fst (check_response_itself n p req E)) <-> In (Silenced w ids) (fst (silence_itself n p req E))).
  { intro ids. unfold check_response_itself. change (response_checks n p req) with (silence_itself n p req :: tl (response_checks n p req)).
    apply seq_first; [apply silencing_done|]. apply (follows2_all (response_follows http n p req)). apply Forall_forall. intros. split; intros; apply hears_quiet. }
  assert (S2 : forall q ids, req = Some q -> In (Silenced w ids) (fst (check_response_in_context n p req q E)) <-> In (Silenced w ids) (fst (silence_from_request n p req q E))).
  { intros q ids R. unfold check_response_in_context. change (context_checks n p req q) with (silence_from_request n p req q :: tl (context_checks n p req q)).
    apply seq_first; [apply silencing_done|]. apply (follows2_all (context_follows http n p R)). apply Forall_forall. intros. split; intros; apply hears_quiet. }
  pose proof (silencing_in (of_response n p req) (of_response n p req) (fun _ => true) w id) as A. cbn [of_response j_who j_msg] in A.
  unfold check_response. split.
  - intros [ids [H J]]. apply bind_in in H. destruct H as [H|[[] [D H]]].
    + apply S1 in H. destruct (proj1 A) as [-> K]; [exists ids; auto|]. auto.
    + destruct req as [q|] eqn:R; [|destruct H]. apply (S2 q ids eq_refl) in H.
      destruct (proj1 (silencing_in (of_request q) (of_response n p (Some q)) truthy_val w id)) as [-> K]; [exists ids; auto|]. split; [reflexivity|]. right. split; [exact D|]. exists q. auto.
  - intros [-> [H|[D [q [-> H]]]]].
    + destruct (proj2 A) as [ids [K J]]; [auto|]. exists ids. split; [|exact J]. apply bind_in. left. now apply S1.
    + destruct (proj2 (silencing_in (of_request q) (of_response n p (Some q)) truthy_val (Resp n) id)) as [ids [K J]]; [auto|]. exists ids. split; [|exact J].
      apply bind_in. right. exists tt. split; [exact D|]. now apply (S2 q ids eq_refl).
Qed.
Lemma from_silences req w id l : forall n final, (exists ids, In (Silenced w ids) (fst (check_responses_from req n final l E)) /\ In id ids) ->
  exists i p, w = Resp (n + i) /\ nth_error l i = Some p /\ (named (p_msg p) id (fun _ => true) \/ exists q, req = Some q /\ named (q_msg q) id truthy_val).
Proof.
  induction l as [|p l IH]; intros n final [ids [H J]]; [destruct H|]. cbn [check_responses_from] in H. apply bind_in in H. destruct H as [H|[v [_ H]]].
  { destruct final as [f|]; [|destruct H]. destruct H as [H|[]]. discriminate H. }
  apply bind_in in H. destruct H as [H|[v' [_ H]]].
  - destruct (proj1 (response_silences n p req w id)) as [-> K]; [exists ids; auto|]. exists 0, p. split; [f_equal; lia|]. split; [reflexivity|]. destruct K as [K|[_ K]]; auto.
  - destruct (IH _ _ (ex_intro _ ids (conj H J))) as [i [p' [-> [N K]]]]. exists (S i), p'. split; [f_equal; lia|]. auto.
Qed.
Lemma from_silences_back req id l : forall n final i p, snd (check_responses_from req n final l E) = Ok tt -> nth_error l i = Some p ->
  (named (p_msg p) id (fun _ => true) \/ exists q, req = Some q /\ named (q_msg q) id truthy_val) -> exists ids, In (Silenced (Resp (n + i)) ids) (fst (check_responses_from req n final l E)) /\ In id ids.
Proof.
  induction l as [|p0 l IH]; intros n final i p D N H; [destruct i; discriminate N|]. cbn [check_responses_from] in D |- *. apply bind_done in D. destruct D as [[] [D1 D]].
  apply bind_done in D. destruct D as [[] [D2 D]]. destruct i as [|i].
  - cbn in N. injection N as ->. destruct (proj2 (response_silences n p req (Resp n) id)) as [ids [K J]].
    { split; [reflexivity|]. destruct H as [H|H]; [auto|right]. split; [|exact H]. unfold check_response in D2. apply bind_done in D2. destruct D2 as [[] [D2 _]]. exact D2. }
    exists ids. rewrite Nat.add_0_r. split; [|exact J]. apply bind_in. right. exists tt. split; [exact D1|]. apply bind_in. now left.
  - destruct (IH (S n) (match final with Some f => Some f | None => if informational (p_status p0) then None else Some n end) i p D N H) as [ids [K J]]. exists ids. split; [|exact J].
    replace (n + S i) with (S n + i) by lia. apply bind_in. right. exists tt. split; [exact D1|]. apply bind_in. right. exists tt. auto.
Qed.
Lemma named_without m id : named m id (fun v => negb (truthy_val v)) <-> silences E m id false.
Proof.
  split; intros [v [l [z [flag [V [L [I [Z0 H]]]]]]]]; exists v, l, z, flag; (split; [exact V|]); (split; [exact L|]); (split; [exact I|]); (split; [exact Z0|]).
  - destruct H as [[[b ->]| ->] [-> K]]; (split; [reflexivity|]); [|now right]. left. destruct b; [discriminate K|reflexivity].
  - destruct H as [-> [-> | ->]]; split; eauto.
Qed.
Lemma named_with m id : named m id truthy_val <-> silences E m id true.
Proof.
  split; intros [v [l [z [flag [V [L [I [Z0 H]]]]]]]]; exists v, l, z, flag; (split; [exact V|]); (split; [exact L|]); (split; [exact I|]); (split; [exact Z0|]).
  - destruct H as [[[b ->]| ->] [-> K]]; (split; [reflexivity|]); [|discriminate K]. destruct b; [reflexivity|discriminate K].
  - destruct H as [-> ->]; split; eauto.
Qed.
Lemma named_any m id : named m id (fun _ => true) <-> exists resp, silences E m id resp.
Proof.
  split.
  - intros [v [l [z [flag [V [L [I [Z0 [F [-> _]]]]]]]]]]. destruct F as [[b ->]| ->]; [exists b|exists false]; exists v, l, z; [exists (VBool b)|exists VNone]; repeat split; auto. destruct b; auto.
  - intros [resp [v [l [z [flag [V [L [I [Z0 [-> F]]]]]]]]]]. exists v, l, z, flag. repeat split; auto. destruct resp; [|destruct F as [F|F]]; eauto.
Qed.
Lemma exchange_silences x w id : silenced E x w id -> (exists q, x_request x = Some q /\ w = Req /\ named (q_msg q) id (fun v => negb (truthy_val v))) \/
  exists i p, w = Resp i /\ response_at x i p /\ (named (p_msg p) id (fun _ => true) \/ exists q, x_request x = Some q /\ named (q_msg q) id truthy_val).
Proof.
  intros [ids [H J]]. unfold check_exchange in H. apply bind_in in H. destruct H as [H|[b [_ H]]].
  - left. destruct (x_request x) as [q|]; [|destruct H]. exists q. split; [reflexivity|]. apply bind_in in H. destruct H as [H|[u [_ H]]]; [apply request_silences; eauto|].
    exfalso. revert H. apply emits_quiet. unfold is_equal. apply emits_bind; [|intros; apply emits_ret]. eapply view_says; apply (hears_quiet _ _ []).
  - right. apply bind_in in H. destruct H as [H|[u [_ H]]]; [exact (@from_silences (x_request x) w id (x_responses x) 0 None (ex_intro _ ids (conj H J)))|].
    exfalso. revert H. generalize 0, b. induction (x_responses x) as [|p l IH]; intros n e H; [destruct H|]. cbn [check_continue] in H. apply bind_in in H. destruct H as [H|[u' [_ H]]]; [|exact (IH _ _ H)].
    destruct (_ && _); [|destruct H]. destruct H as [H|[]]. discriminate H.
Qed.
End Scope.

(** C30.  What becomes silenced on a message: on the request, what its
    HTTPolice-Silence lists without [resp]; on a response, what its own lists,
    and what the request's lists with [resp].  Nothing else. *)
Theorem C30_scope : forall E x w id, parses_http (e_read E) -> finished E x ->
  (silenced E x w id <->
     (exists q, x_request x = Some q /\ w = Req /\ silences E (q_msg q) id false) \/
     (exists i p, w = Resp i /\ response_at x i p /\
        ((exists resp, silences E (p_msg p) id resp) \/ (exists q, x_request x = Some q /\ silences E (q_msg q) id true)))).
Proof.
  intros E x w id http D. split.
  - intro H. apply (exchange_silences http) in H. destruct H as [[q [R [-> N]]]|[i [p [-> [A N]]]]]; [left; exists q; repeat split; auto; now apply named_without|].
    right. exists i, p. split; [reflexivity|]. split; [exact A|]. destruct N as [N|[q [R N]]]; [left; now apply named_any|right; exists q; split; [exact R|now apply named_with]].
  - unfold finished, check_exchange in D. apply bind_done in D. destruct D as [b [B D]]. apply bind_done in D. destruct D as [[] [D _]]. unfold silenced, check_exchange. intros [[q [R [-> N]]]|[i [p [-> [A N]]]]].
    + apply named_without in N. destruct (proj2 (request_silences http q Req id)) as [ids [H J]]; [auto|]. exists ids. split; [|exact J]. apply bind_in. left. rewrite R. apply bind_in. now left.
    + assert (N' : named E (p_msg p) id (fun _ => true) \/ exists q, x_request x = Some q /\ named E (q_msg q) id truthy_val).
      { destruct N as [N|[q [R N]]]; [left; now apply named_any|right; exists q; split; [exact R|now apply named_with]]. }
      destruct (from_silences_back http D A N') as [ids [H J]]. exists ids. split; [|exact J]. apply bind_in. right. exists b. split; [exact B|]. apply bind_in. left. exact H.
Qed.
Print Assumptions C30_scope.
(** Nothing else is silenced also when a check raises. *)
Theorem C30_scope_only : forall E x w id, parses_http (e_read E) -> silenced E x w id ->
     (exists q, x_request x = Some q /\ w = Req /\ silences E (q_msg q) id false) \/
     (exists i p, w = Resp i /\ response_at x i p /\
        ((exists resp, silences E (p_msg p) id resp) \/ (exists q, x_request x = Some q /\ silences E (q_msg q) id true))).
Proof.
  intros E x w id http H. apply (exchange_silences http) in H. destruct H as [[q [R [-> N]]]|[i [p [-> [A N]]]]]; [left; exists q; repeat split; auto; now apply named_without|].
  right. exists i, p. split; [reflexivity|]. split; [exact A|]. destruct N as [N|[q [R N]]]; [left; now apply named_any|right; exists q; split; [exact R|now apply named_with]].
Qed.
Print Assumptions C30_scope_only.

(** ** Examples *)
Local Opaque check_exchange.
Lemma noted_said ids es w id ctx : In (Said w id ctx) (filter (noted ids) es) -> In (Said w id ctx) es.
Proof. intro I. exact (proj1 (proj1 (filter_In _ _ _) I)). Qed.
Lemma noted_silenced ids es w id : (exists l, In (Silenced w l) es /\ In id l) <-> exists l, In (Silenced w l) (filter (noted ids) es) /\ In id l.
Proof. split; intros [l [I J]]; exists l; (split; [|exact J]); [apply filter_In; split; [exact I|reflexivity]|exact (proj1 (proj1 (filter_In _ _ _) I))]. Qed.

Example C32_example : parses_http (e_read example_env) /\ finished example_env waiting_exchange /\
  first_final waiting_exchange 1 /\ said example_env waiting_exchange (Resp 2) 1304 [(s "previous", CResponse 1)] /\
  expects_continue example_env waiting_request /\ said example_env waiting_exchange (Resp 0) 1305 [].
Proof.
  destruct waiting_run as [D R]. split; [exact example_parses|]. split; [exact D|].
  assert (G : forall w id ctx, In (Said w id ctx) (filter (noted [1304; 1305]%N) (fst (check_exchange waiting_exchange example_env))) -> said example_env waiting_exchange w id ctx).
  { intros w id ctx. apply noted_said. }
  split; [|split; [|split]].
  - split; [exists (empty_response 204 []); split; [reflexivity|cbn; lia]|]. intros [|k] L; [|lia]. intros [p [N F]]. cbn in N. injection N as <-. apply F. cbn. lia.
  - apply G. rewrite R. cbn [In]. tauto.
  - eexists _, (s "100-Continue"). split; [apply view_is_iff; eexists; split; [vm_compute; reflexivity|reflexivity]|]. split; [vm_compute; reflexivity|now apply same_name_lower].
  - apply G. rewrite R. cbn [In]. tauto.
Qed.
Example C30_example : parses_http (e_read example_env) /\ finished example_env waiting_exchange /\
  silenced example_env waiting_exchange Req 1070 /\ silenced example_env waiting_exchange (Resp 0) 1048 /\ silenced example_env waiting_exchange (Resp 2) 1110 /\
  ~ silenced example_env waiting_exchange Req 1110 /\ ~ silenced example_env waiting_exchange (Resp 1) 1048.
Proof.
  destruct waiting_run as [D R]. split; [exact example_parses|]. split; [exact D|].
  assert (G : forall w id, silenced example_env waiting_exchange w id <-> exists ids, In (Silenced w ids) (filter (noted [1304; 1305]%N) (fst (check_exchange waiting_exchange example_env))) /\ In id ids).
  { intros w id. apply noted_silenced. }
  split; [apply G; rewrite R; exists [1070%N]; split; [cbn [In]; auto|now left]|]. split; [apply G; rewrite R; exists [1048%N]; split; [cbn [In]; auto|now left]|].
  split; [apply G; rewrite R; exists [1110%N]; split; [cbn [In]; tauto|now left]|].
  split; intro H; apply (proj1 (G _ _)) in H; rewrite R in H; clear G D R; destruct H as [ids [I J]]; cbn [In] in I; repeat (destruct I as [I|I]; [try discriminate I; try (injection I as <-; destruct J as [J|J]; [discriminate J|destruct J]); try (injection I as <-; destruct J)|]); destruct I.
Qed.
