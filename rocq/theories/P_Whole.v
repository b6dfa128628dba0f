(** C109 and C110: which header fields are reported as malformed, and what is
    made of the others, from the texts of the fields on. *)
From Coq Require Import ZifyBool ZifyNat ZifyN Permutation String.
From Verif Require Import ChecksRequest ChecksResponse P_Bodies RulesLogic Rules RulesBase RulesMessage RulesPayload RulesAny RulesRequest RulesOfResponse RulesResponse RulesContext.
From Verif Require Import Base Earley Parse Grammar GrammarWF Syntax Actions Nested Reading P_Earley P_Grammar P_Types Text Structure Known Tables Header HeaderProofs P_Header P_Views P_Util Values Notices
  ChecksBase ChecksLogic ChecksViews ChecksFacts ChecksSays ChecksTop ChecksExchange ChecksExample ChecksMessage P_Exchange P_Safe HeaderValue P_Rules HttpText HttpValues UriText MoreValues P_More AgainValues SyntaxAgain P_Again.
Open Scope nat_scope.
Open Scope list_scope.
Unset Strict Implicit.
Local Open Scope string_scope.
Local Open Scope list_scope.

(** ** The specification *)

(** [read] is what [parse()] returns. *)
Definition parser_of (read : symbol -> str -> option (val * list vcomplaint)) : Prop := exists nst again,
  (decides nst again /\ parses nst again) /\ decides (nested again) read /\ parses (nested again) read.
(** Headers called [name] are specified to be read as [S]. *)
Definition header_means (name : str) (S : reading) : Prop := exists n, In (n, S) header_readings /\ P_Header.same_name (s n) name.
(** Some field at [p] that is used, and is not as specified. *)
Definition malformed_at (m : msg) (p : place) : Prop := exists e S, usable (m_entries m) (e_name e) p e /\ header_means (e_name e) S /\ ~ exists v cs, S (e_value e) v cs.

(** [r] reads every text that is as specified, and no others. *)
Definition reads_by (r : str -> option (val * list vcomplaint)) (S : reading) : Prop := forall w,
  match r w with
  | Some (v, cs) => exists cs', S w v cs' /\ Permutation cs cs'
  | None => ~ exists v cs, S w v cs
  end.
(** What a field is worth, and the notices about how it is written. *)
Definition worth (r : str -> option (val * list vcomplaint)) (w : str) : val := match r w with Some (v, _) => v | None => VUnavailable (VBytes w) end.
Definition noticed (r : str -> option (val * list vcomplaint)) (p : place) (w : str) (n : notice) : Prop :=
  match r w with
  | Some (_, cs) => exists c, In c cs /\ n = (fst c, (s "place", AEntry p) :: map (fun kv => (fst kv, AVal (snd kv))) (snd c))
  | None => n = (1000%N, [(s "error", AVal (VObj (s "ParseError") [])); (s "place", AEntry p)])
  end.

(** ** Proofs *)

Lemma parser_http read : parser_of read -> parses_http read.
Proof. intros (nst & again & (_ & A) & _ & B). exists nst, again. auto. Qed.

Lemma headers_proper : forallb (fun i => match hk_syntax i with Some x => GrammarWF.proper rec_names x | None => true end) header_table = true.
Proof. vm_compute. reflexivity. Qed.

Section Read.
Variable read : symbol -> str -> option (val * list vcomplaint).
Hypothesis P : parser_of read.


Lemma header_proper i x : In i header_table -> hk_syntax i = Some x -> is_proper x.
Proof. intros I X. pose proof (proj1 (forallb_forall _ _) headers_proper _ I) as H. cbn beta in H. now rewrite X in H. Qed.

Lemma meant name S : header_means name S -> exists i x, known_as i name /\ hk_syntax i = Some x /\ reads_by (read x) S.
Proof.
  intros (n & I & E). destruct P as (nst & again & (A & A') & D & D').
  destruct (proj2 (C108_headers A) n S I) as (i & x & J & K & X & _). exists i, x.
  split; [split; [exact J|now rewrite K]|]. split; [exact X|]. intro w. destruct (proj2 (C108_headers A) n S I) as (i' & x' & J' & K' & X' & R').
  assert (i' = i) as -> by (apply (@known_as_unique i' i name); split; try assumption; [now rewrite K'|now rewrite K]). assert (x' = x) as -> by congruence.
  specialize (D x w (header_proper J X)). destruct (read x w) as [[v c]|].
  - destruct D as (a & r & H & <- & <-). destruct (R' a w) as (_ & _ & C). exact (C r H).
  - destruct D as (a & e & H). intro X2. destruct (R' a w) as (Y & _). destruct (Y X2) as (r & H'). pose proof (returns_unique H H') as E2. discriminate E2.
Qed.
Lemma has_meaning name x : syntax_for name = Some x -> exists S, header_means name S /\ reads_by (read x) S.
Proof.
  unfold syntax_for. destruct (header_of name) as [i|] eqn:K; [|discriminate]. intro X. apply known_as_iff in K. destruct P as (nst & again & (A & A') & D & D').
  destruct (proj1 (C108_headers A) i x (proj1 K) X) as (n & S & J & N & _). exists S. assert (M : header_means name S) by (exists n; split; [exact J|]; rewrite <- N; apply K). split; [exact M|].
  destruct (meant M) as (i' & x' & K' & X' & R). assert (i' = i) as -> by (eapply known_as_unique; eauto). assert (x' = x) as <- by congruence. exact R.
Qed.

(** No notice about arguments is 1000. *)
Notation Q := (fun n : notice => fst n <> 1000%N).
Lemma placed_not p extra x w v cs : read x w = Some (v, cs) -> Forall Q (map (placed p extra) cs).
Proof.
  intro R. pose proof (http_reads (parser_http P) R) as H. apply Forall_forall. intros n I. apply in_map_iff in I. destruct I as [c [<- I]]. cbn [placed fst].
  rewrite Forall_forall in H. destruct (H c I) as (keys & J & _). intro E. rewrite E in J.
  assert (F : forallb (fun e => negb (N.eqb (fst e) 1000)) grammar_notices = true) by (vm_compute; reflexivity).
  pose proof (proj1 (forallb_forall _ _) F _ J) as K. discriminate K.
Qed.
Ltac q_one := constructor; [discriminate|constructor].
Lemma process_pair_not ci t p nm a : Forall Q (snd (process_pair read ci t p nm a)).
Proof.
  unfold process_pair.
  assert (R : Forall Q (snd match match find_arg ci t (text_of nm) with Some i => ak_syntax i | None => None end with
          | Some x =>
              match read x (text_of a) with
              | Some (v, cs) => (parametrized nm v, map (placed p [(s "name", AVal nm); (s "value", AVal a)]) cs)
              | None => (parametrized nm (VUnavailable (VBytes (text_of a))),
                         [(1158%N, [error_arg; (s "place", AEntry p); (s "name", AVal nm); (s "value", AVal a)])])
              end
          | None => (parametrized nm a, [])
          end)).
  { destruct (match find_arg ci t (text_of nm) with Some i => ak_syntax i | None => None end) as [x|]; [|apply Forall_nil].
    destruct (read x (text_of a)) as [[v cs]|] eqn:E; cbn [snd]; [eapply placed_not; exact E|]. q_one. }
  destruct a; cbv zeta; destruct (match find_arg ci t (text_of nm) with Some i => ak_argument i | None => None end) as [[]|]; try exact R; cbn [snd];
    try apply Forall_nil; q_one.
Qed.
Lemma arguments_not ci t p pr : Forall Q (snd (process_arguments read ci t p pr)).
Proof. unfold process_arguments. destruct (unpack2 pr) as [[nm a]|]; [apply process_pair_not|constructor]. Qed.
Lemma each_not f l : (forall v, Forall Q (snd (f v))) -> Forall Q (snd (each f l)).
Proof. intros Hf. induction l as [|v l IH]; [constructor|]. cbn. specialize (Hf v). destruct (f v), (each f l). cbn in *. now apply Forall_app. Qed.
Lemma each_of_not f v : (forall v, Forall Q (snd (f v))) -> Forall Q (snd (each_of f v)).
Proof. intros Hf. destruct v; try constructor. cbn. pose proof (@each_not f l Hf) as H. destruct (each f l). exact H. Qed.
Lemma directive_not p pr : Forall Q (snd (process_directive read p pr)).
Proof.
  unfold process_directive. destruct (unpack2 pr) as [[nm a]|]; [|constructor]. destruct a; try constructor.
  - apply process_pair_not.
  - destruct l as [|[] [|y [|]]]; try constructor.
    pose proof (process_pair_not true cache_directive_table p nm y) as X. destruct (process_pair read true cache_directive_table p nm y) as [v ns]. cbn [snd] in *.
    apply Forall_app. split; [|exact X].
    repeat match goal with |- context [match ?x with _ => _ end] => destruct x end; try apply Forall_nil; q_one.
Qed.
Lemma parsed_not c p v : Forall Q (snd (process_parsed read c p v)).
Proof.
  destruct c as [| | |sp]; [constructor|constructor|constructor|]. destruct sp; cbn [process_parsed].
  - apply each_of_not. intro. apply directive_not.
  - apply each_of_not. intro. apply arguments_not.
  - assert (PL : forall w, Forall Q (snd (process_alternative read p w))).
    { intro w. unfold process_alternative. destruct w; try constructor. destruct args as [|i args]; [constructor|]. destruct args as [|d args]; [constructor|].
      destruct d; try constructor. destruct args as [ | ? ? ]; [|destruct args0 as [|[] []]; constructor]. destruct args0 as [|[] [|]]; try constructor.
      pose proof (@each_not (process_arguments read false alt_svc_param_table p) l (arguments_not false alt_svc_param_table p)) as X.
      destruct (each (process_arguments read false alt_svc_param_table p) l). exact X. }
    destruct v; try (apply each_of_not; exact PL). destruct (str_eqb x (s "clear")); constructor.
  - apply each_of_not. intro w. unfold process_preference. destruct (unpack2 w) as [[pr ps]|]; [|constructor].
    pose proof (arguments_not true preference_table p pr) as X. destruct (process_arguments read true preference_table p pr). exact X.
  - apply each_of_not. intro. apply arguments_not.
  - pose proof (@each_of_not (each_of (process_arguments read true forwarded_param_table p)) v (fun w => @each_of_not _ w (arguments_not true forwarded_param_table p))) as X.
    destruct (each_of (each_of (process_arguments read true forwarded_param_table p)) v) as [v' ns]. cbn [snd] in X. destruct v'; try constructor. cbn [snd].
    apply Forall_app. split; [exact X|]. unfold check_elements. apply Forall_app. split.
    + apply Forall_forall. intros m0 I. apply in_flat_map in I. destruct I as [el [_ I]]. apply in_map_iff in I. destruct I as [nm [<- _]]. discriminate.
    + repeat match goal with |- context [match ?x with _ => _ end] => destruct x end; try apply Forall_nil; q_one.
Qed.
Lemma delims_from name p v n : In n (check_quoted_delims name p v) -> In (fst n) [1299%N; 1300%N].
Proof.
  intro I. unfold check_quoted_delims in I. apply in_flat_map in I. destruct I as [x [_ I]]. rewrite in_app_iff in I.
  destruct (flag_of hk_quoted_comma_bad name && existsb (N.eqb 44) x), (flag_of hk_quoted_semicolon_bad name && existsb (N.eqb 59) x); cbn [In] in I;
    repeat match goal with H : _ \/ _ |- _ => destruct H end; subst; try contradiction; cbn [fst In]; auto.
Qed.
Lemma entry_1000 c name p e n : fst n = 1000%N -> (In n (snd (read_entry read c name p e)) <->
  exists x, syntax_for name = Some x /\ read x (e_value e) = None /\ n = (1000%N, [error_arg; (s "place", AEntry p)])).
Proof.
  intro E. unfold read_entry. destruct (syntax_for name) as [x|]; [|split; [intros []|intros (y & H & _); discriminate H]].
  destruct (read x (e_value e)) as [[v cs]|] eqn:R.
  - split; [|intros (y & H & H' & _); congruence]. intro I. exfalso. assert (X : Forall Q (map (placed p []) cs)) by (eapply placed_not; exact R). rewrite Forall_forall in X.
    destruct (is_unavailable v); [exact (X _ I E)|]. pose proof (parsed_not c p v) as Y. rewrite Forall_forall in Y. destruct (process_parsed read c p v) as [v' ns]. cbn [snd] in *.
    rewrite !in_app_iff in I. destruct I as [I|[I|I]]; [exact (X _ I E)|exact (Y _ I E)|]. apply delims_from in I. rewrite E in I. destruct I as [I|[I|[]]]; discriminate I.
  - cbn [snd In]. split; [intros [<-|[]]; eauto|]. intros (y & _ & _ & ->). now left.
Qed.

Lemma view_1000 m name v n : view_is read m name v -> fst n = 1000%N -> (In n (v_notices v) <->
  exists p e x, usable m name p e /\ syntax_for name = Some x /\ read x (e_value e) = None /\ n = (1000%N, [error_arg; (s "place", AEntry p)])).
Proof.
  intros V E. apply view_is_iff in V. destruct V as (c & C & ->). unfold parse_view. rewrite pre_parse_eq.
  pose proof (combine_ids c name (filter (kept name) (enumerate m name)) (map (fun x => fst (read_entry read c name (fst x) (snd x))) (filter (kept name) (enumerate m name)))) as W.
  destruct (combine_entries c name _ _) as [[es' v'] ns']. cbn [v_notices snd] in *. rewrite Forall_forall in W. rewrite in_app_iff, in_flat_map.
  pose proof (proj1 (kept_usable m name)) as U. split.
  - intros [((p & e) & I & H)|I]; [|apply W in I; rewrite E in I; discriminate I]. cbn [fst snd] in H. destruct (kept name (p, e)) eqn:K.
    + apply (entry_1000 c name p e E) in H. destruct H as (x & X & R & ->). exists p, e, x. split; [apply U, filter_In; auto|auto].
    + destruct H as [<-|[]]. discriminate E.
  - intros (p & e & x & H & X & R & ->). apply U, filter_In in H. destruct H as (I & K). left. exists (p, e). split; [exact I|]. rewrite K. cbn [fst snd]. apply (entry_1000 c name p e E). eauto.
Qed.
End Read.

Lemma required_numbered E x w id ctx : required E x (Said w id ctx) -> In id rule_ids.
Proof.
  intro H. remember (Said w id ctx) as e eqn:Ev. destruct H as [q e Q H|n p e P H|n p q e P Q H|n p f pf P _ _ _ _|n p q P _ _ _ _]; subst.
  - exact (due_numbered (request_numbered E q) H).
  - exact (due_numbered (response_numbered E n p (x_request x)) H).
  - exact (due_numbered (context_numbered E n p q) H).
  - injection Ev as _ <- _. now left.
  - injection Ev as _ <- _. right. now left.
Qed.
Lemma usable_same m a b p e : P_Header.same_name a b -> usable m a p e -> usable m b p e.
Proof.
  intros E (A & B & C). split; [exact A|]. assert (X : P_Header.same_name b (e_name e)) by (rewrite same_name_lower in *; congruence). split; [exact X|].
  intros (T & i & (I & K) & F). apply C. split; [exact T|]. exists i. split; [split; [exact I|]|exact F]. rewrite same_name_lower in *. congruence.
Qed.

(** ** C109: malformed headers *)

Theorem C109_malformed : forall E x w ctx, parser_of (e_read E) -> finished E x ->
  (said E x w 1000 ctx <->
   exists m p, has_message x w m /\ malformed_at m p /\ ctx = [(s "error", CVal (VObj (s "ParseError") [])); (s "place", CEntry w p)]).
Proof.
  intros E x w ctx P F. pose proof (parser_http P) as H. split.
  - intro S. destruct (C67_sound H S) as [R|(w' & m & name & v & n & M & V & I & L)].
    + exfalso. apply required_numbered in R. assert (N : existsb (N.eqb 1000) rule_ids = false) by (vm_compute; reflexivity). rewrite <- not_true_iff_false in N. apply N. apply existsb_exists. exists 1000%N. auto using N.eqb_refl.
    + assert (E1 : w = w' /\ 1000%N = fst n /\ ctx = map (fun kv => (fst kv, lift_arg w' (snd kv))) (snd n)) by (unfold lift in L; injection L as A B C; auto). destruct E1 as (<- & E1 & E2). symmetry in E1.
      apply (view_1000 P V E1) in I. destruct I as (p & e & y & U & X & R & ->). exists m, p. split; [exact M|]. split; [|exact E2].
      destruct (has_meaning P X) as (T & (k & J & K) & B). specialize (B (e_value e)). rewrite R in B. exists e, T. split; [|split; [|exact B]].
      * apply (@usable_same (m_entries m) name); [apply U|exact U].
      * exists k. split; [exact J|]. destruct U as (_ & U & _). rewrite same_name_lower in *. congruence.
  - intros (m & p & M & (e & S & U & T & N) & ->). apply C67_complete; [exact H|exact F|]. right.
    destruct (meant P T) as (i & y & K & X & B). assert (R : e_read E y (e_value e) = None).
    { specialize (B (e_value e)). destruct (e_read E y (e_value e)) as [[v cs]|]; [|reflexivity]. exfalso. apply N. destruct B as (c & B & _). eauto. }
    destruct (class_of_total (e_name e)) as (c & C). exists w, m, (e_name e), (parse_view (e_read E) c (m_entries m) (e_name e)), (1000%N, [error_arg; (s "place", AEntry p)]).
    assert (V : view_is (e_read E) (m_entries m) (e_name e) (parse_view (e_read E) c (m_entries m) (e_name e))) by (apply view_is_iff; eauto).
    split; [exact M|]. split; [exact V|]. split; [|reflexivity]. apply (view_1000 P V); [reflexivity|]. exists p, e, y. split; [exact U|]. split; [|auto].
    unfold syntax_for. now rewrite (proj1 (known_as_iff i (e_name e)) K).
Qed.
Print Assumptions C109_malformed.

(** There are parsers. *)
Lemma parsers : exists read, parser_of read.
Proof. destruct (decider (fun _ _ => (VBad, []))) as (again & A). destruct (decider (nested again)) as (read & R). exists read, (fun _ _ => (VBad, [])), again. auto. Qed.
Definition real_env (read : symbol -> str -> option (val * list vcomplaint)) : env :=
  let E := safe_env in
  {| e_read := read; e_now := e_now E; e_gzip := e_gzip E; e_deflate := e_deflate E; e_brotli := e_brotli E; e_codec := e_codec E; e_decode := e_decode E; e_replace := e_replace E;
     e_json := e_json E; e_xml := e_xml E; e_email := e_email E; e_qs := e_qs E; e_url := e_url E; e_join := e_join E; e_base64 := e_base64 E; e_fnmatch := e_fnmatch E |}.
Definition ageless : exchange := Exchange None [empty_response 204 [("AGE", "x")]].
Example C109_example : exists E, parser_of (e_read E) /\ finished E ageless /\
  said E ageless (Resp 0) 1000 [(s "error", CVal (VObj (s "ParseError") [])); (s "place", CEntry (Resp 0) (false, 0))].
Proof.
  destruct parsers as (read & P). exists (real_env read). split; [exact P|].
  assert (M : forall m, message_of ageless m -> m = p_msg (empty_response 204 [("AGE", "x")])).
  { intros m H. inversion H as [q Q|p Q]; subst; [discriminate Q|]. destruct Q as [<-|[]]. reflexivity. }
  assert (F : finished (real_env read) ageless).
  { apply C56_finishes.
    - exact (parser_http P).
    - intros m H. rewrite (M m H). split; [exact I|split; intros v V; discriminate V].
    - intro L. destruct L as [x L|c x L|x L|x L|x L|x L|x L|x L|x y L]; try discriminate L. cbn in L. destruct (str_eqb x _); discriminate L.
    - intros m u H V. rewrite (M m H) in V. apply value_is in V. subst u. intro X. apply has_bad_crashed in X. vm_compute in X. discriminate X.
    - intros p links uri params c k y [<-|[]] Z. discriminate Z.
    - intros p date d a [<-|[]] _ V T. apply value_is in V. subst date. vm_compute in T. discriminate T. }
  split; [exact F|]. apply (@C109_malformed (real_env read) ageless (Resp 0) _ P F). exists (p_msg (empty_response 204 [("AGE", "x")])), (false, 0).
  split; [exists (empty_response 204 [("AGE", "x")]); auto|]. split; [|reflexivity]. exists (Entry (s "AGE") (s "x")), number_text. split; [|split].
  - split; [reflexivity|]. split; [now apply same_name_lower|]. intros (H & _). discriminate H.
  - exists "Age". split; [unfold header_readings; cbn [In]; auto 20|now apply same_name_lower].
  - intros (v & cs & (_ & D) & _). inversion D as [|c l H1 H2]. discriminate H1.
Qed.

(** ** C110: well-formed headers *)

Theorem C110_fields : forall read m name S us v, parser_of read -> header_means name S -> all_usable m name us -> view_is read m name v ->
  (exists i, known_as i name /\ (hk_rule i = Some RSingle \/ hk_rule i = Some RMulti)) ->
  exists r, reads_by r S /\
    (forall n, ~ In (fst n) [1013; 1026; 1299; 1300]%N -> (In n (v_notices v) <-> exists p e, In (p, e) us /\ noticed r p (e_value e) n)) /\
    forall i, known_as i name ->
      (hk_rule i = Some RSingle -> v_value v = match rev us with [] => VNone | (_, e) :: _ => worth r (e_value e) end) /\
      (hk_rule i = Some RMulti -> let vs := map (fun u => worth r (e_value (snd u))) us in
         (forall ls, Forall2 contributes vs ls -> v_value v = VList (List.concat ls)) /\
         (forall u, vs = [u] -> (forall l, ~ contributes u l) -> v_value v = u)).
Proof.
  intros read m name S us v P T U V (i & K & R). destruct (meant P T) as (i' & x & K' & X & B). assert (i' = i) as -> by (eapply known_as_unique; eauto). clear K'.
  assert (EV : forall w u, entry_value read name w u -> u = worth (read x) w).
  { intros w u H. unfold worth. inversion H as [H1|j y u' cs J Y Ry|j y J Y Ry]; subst.
    - destruct (H1 i x K X).
    - assert (j = i) as -> by (eapply known_as_unique; eauto). assert (y = x) as -> by congruence. now rewrite Ry.
    - assert (j = i) as -> by (eapply known_as_unique; eauto). assert (y = x) as -> by congruence. now rewrite Ry. }
  exists (read x). split; [exact B|]. split.
  - intros n N. pose proof V as V'. apply view_is_iff in V'. destruct V' as (c & C & ->).
    assert (E : us = filter (kept name) (enumerate m name)) by (eapply all_usable_unique; [exact U|apply kept_usable]).
    pose proof (class_of_rule C) as Z. unfold rule_for in Z. rewrite (proj1 (known_as_iff i name) K) in Z.
    assert (PL : forall q w, process_parsed read c q w = (w, [])) by (intros q w; destruct R as [R|R]; rewrite R in Z; subst c; reflexivity).
    assert (Sy : syntax_for name = Some x) by (unfold syntax_for; now rewrite (proj1 (known_as_iff i name) K)).
    assert (RE : forall p e, In n (snd (read_entry read c name p e)) <-> noticed (read x) p (e_value e) n).
    { intros p e. unfold read_entry, noticed. rewrite Sy. destruct (read x (e_value e)) as [[u cs]|]; cbn [snd In].
      - assert (J : In n (map (placed p []) cs) <-> exists k, In k cs /\ n = (fst k, (s "place", AEntry p) :: map (fun kv => (fst kv, AVal (snd kv))) (snd k))).
        { rewrite in_map_iff. unfold placed. cbn [app]. split; intros (k & A & D); exists k; auto. }
        destruct (is_unavailable u); [exact J|]. rewrite PL. cbn [snd app]. rewrite in_app_iff, J. split; [intros [H|H]; [exact H|]|auto]. exfalso. apply N. apply delims_from in H. cbn [In] in *. tauto.
      - unfold error_arg. split; [intros [<-|[]]; reflexivity|intros ->; now left]. }
    unfold parse_view. rewrite pre_parse_eq, <- E.
    pose proof (combine_ids c name us (map (fun x => fst (read_entry read c name (fst x) (snd x))) us)) as W.
    destruct (combine_entries c name _ _) as [[es' v'] ns']. cbn [v_notices snd] in *. rewrite Forall_forall in W. rewrite in_app_iff, in_flat_map. split.
    + intros [((p & e) & I & H)|I]; [|exfalso; apply N; rewrite (W _ I); now left]. cbn [fst snd] in H. destruct (kept name (p, e)) eqn:Kp.
      * exists p, e. split; [rewrite E; apply filter_In; auto|]. now apply RE.
      * destruct H as [<-|[]]. exfalso. apply N. cbn [fst In]. auto.
    + intros (p & e & I & H). left. rewrite E in I. apply filter_In in I. destruct I as (I & Kp). exists (p, e). split; [exact I|]. rewrite Kp. cbn [fst snd]. now apply RE.
  - intros j J. assert (j = i) as -> by (eapply known_as_unique; eauto). split.
    + intro RS. destruct (C34_single K RS U V) as (A & A' & _). destruct (rev us) as [|[p e] l] eqn:Rv.
      * apply (f_equal (@rev _)) in Rv. rewrite rev_involutive in Rv. now destruct (A Rv).
      * apply (f_equal (@rev _)) in Rv. rewrite rev_involutive in Rv. cbn [rev] in Rv. destruct (A' _ _ _ Rv) as (_ & H). now apply EV.
    + intro RM. destruct (C35_multi K RM U V) as (_ & vs & F & A & A' & _).
      assert (Q : vs = map (fun u => worth (read x) (e_value (snd u))) us) by (clear - F EV; induction F as [|y z us vs H F IH]; [reflexivity|]; cbn [map]; f_equal; [now apply EV|exact IH]).
      cbv zeta. rewrite <- Q. auto.
Qed.
Print Assumptions C110_fields.
(** Three fields, and one in the trailer, which does not count: the last one
    counts, and the middle one is reported. *)
Definition lengths : entries := Entries [Entry (s "Max-Forwards") (s "1"); Entry (s "max-forwards") (s "x"); Entry (s "MAX-FORWARDS") (s "07")] [Entry (s "Max-Forwards") (s "8")].
Example C110_example : exists read v us, parser_of read /\ header_means (s "Max-Forwards") number_text /\ all_usable lengths (s "Max-Forwards") us /\ view_is read lengths (s "Max-Forwards") v /\
  (exists i, known_as i (s "Max-Forwards") /\ (hk_rule i = Some RSingle \/ hk_rule i = Some RMulti)) /\
  v_value v = VInt 7 /\ In (1000%N, [(s "error", AVal (VObj (s "ParseError") [])); (s "place", AEntry (false, 1))]) (v_notices v).
Proof.
  destruct parsers as (read & P). assert (T : header_means (s "Max-Forwards") number_text) by (exists "Max-Forwards"; split; [unfold header_readings; cbn [In]; auto 60|now apply same_name_lower]).
  pose proof (kept_usable lengths (s "Max-Forwards")) as U. pose proof (got_is read lengths (s "Max-Forwards")) as V.
  assert (K : exists i, known_as i (s "Max-Forwards") /\ hk_rule i = Some RSingle) by (eexists; split; [apply known_as_iff; reflexivity|reflexivity]). destruct K as (i & K & RS).
  destruct (C110_fields P T U V) as (r & B & N & W); [exists i; auto|]. exists read, (got_view read lengths (s "Max-Forwards")). eexists.
  split; [exact P|]. split; [exact T|]. split; [exact U|]. split; [exact V|]. split; [exists i; auto|]. split.
  - rewrite (proj1 (W i K) RS).
    assert (L : rev (filter (kept (s "Max-Forwards")) (enumerate lengths (s "Max-Forwards"))) = [((false, 2), Entry (s "MAX-FORWARDS") (s "07")); ((false, 1), Entry (s "max-forwards") (s "x")); ((false, 0), Entry (s "Max-Forwards") (s "1"))]) by (vm_compute; reflexivity).
    rewrite L. unfold worth. cbn [e_value]. specialize (B (s "07")). destruct (r (s "07")) as [[u c]|].
    + destruct B as (c' & (_ & -> & _) & _). reflexivity.
    + exfalso. apply B. exists (VInt 7), []. split; [now apply P_More.some_of|]. split; reflexivity.
  - apply N; [cbn [fst In]; intros [H|[H|[H|[H|[]]]]]; discriminate H|]. exists (false, 1), (Entry (s "max-forwards") (s "x")). split; [apply (proj1 U); split; [reflexivity|]; split; [now apply same_name_lower|]; intros (H & _); discriminate H|].
    unfold noticed. cbn [e_value]. specialize (B (s "x")). destruct (r (s "x")) as [[u c]|]; [|reflexivity].
    exfalso. destruct B as (c' & ((_ & D) & _) & _). inversion D as [|a l H1 H2]. discriminate H1.
Qed.
