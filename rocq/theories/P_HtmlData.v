(** C73, C74, C75, C76: the HTML report of exchanges that were checked. *)
From Coq Require Import ZifyBool ZifyNat ZifyN String.
From Verif Require Import Base Earley Grammar Parse Syntax Nested Text P_Util Actions Structure Known Tables Header HeaderProofs P_Header P_Views Values Notices Citation Links Templates Catalogue Titles Blackboard
  ChecksBase ChecksLogic ChecksViews ChecksFacts ChecksMessage ChecksRequest ChecksResponse ChecksSays ChecksTop ChecksExchange ChecksExample P_Types P_Exchange Rules RulesLogic RulesBase P_Rules Reports P_Catalogue P_Bodies Annotated TextReport P_Reports ChecksSafe SafeMessage P_Safe P_Looks Html HtmlData P_Html.
Open Scope nat_scope.
Open Scope list_scope.
Unset Strict Implicit.
Local Open Scope string_scope.
Local Open Scope list_scope.

(** ** Texts of notices *)

(** What the texts of a notice use: references, citations, the exception. *)
Fixpoint elem_paths (e : elem) : list (list string) :=
  match e with
  | Words _ | Templates.Known _ _ _ => []
  | Datum path => [path]
  | Cite _ quote => flat_map elem_paths quote
  end.
Fixpoint elem_cites (e : elem) : list cite :=
  match e with
  | Cite c quote => c :: flat_map elem_cites quote
  | _ => []
  end.
Definition block_paths (b : block) : list (list string) := match b with Para l => flat_map elem_paths l | Exception_ => [] | Pointer path => [path] end.
Definition block_cites (b : block) : list cite := match b with Para l => flat_map elem_cites l | _ => [] end.
Definition citable (c : cite) : bool := cite_valid c && match cite_title c with Some _ => true | None => false end.
Definition shows_exception (l : list block) : bool := existsb (fun b => match b with Exception_ => true | _ => false end) l.
(** The texts of each notice are there; they use only the references of the catalogue,
    citations that can be written, and an exception where there is one. *)
Lemma template_complete n : In n catalogue -> exists title explanation, template_of (c_id n) = Some (title, explanation) /\
  (forall path, In path (flat_map elem_paths title ++ flat_map block_paths explanation) -> In path (c_refs n)) /\
  (forall c, In c (flat_map elem_cites title ++ flat_map block_cites explanation) -> citable c = true) /\
  (shows_exception explanation = true -> c_exception n = true).
Proof.
  assert (C : forallb (fun n => match template_of (c_id n) with
                                | Some (t, b) => forallb (fun path => existsb (path_eqb path) (c_refs n)) (flat_map elem_paths t ++ flat_map block_paths b) &&
                                                 forallb citable (flat_map elem_cites t ++ flat_map block_cites b) && implb (shows_exception b) (c_exception n)
                                | None => false end) catalogue = true) by (vm_compute; reflexivity).
  intro I. rewrite forallb_forall in C. specialize (C n I). destruct (template_of (c_id n)) as [[t b]|]; [|discriminate C]. apply andb_true_iff in C. destruct C as [C C3]. apply andb_true_iff in C. destruct C as [C1 C2].
  exists t, b. split; [reflexivity|]. split; [|split].
  - intros path J. rewrite forallb_forall in C1. specialize (C1 _ J). cbv beta iota in C1. apply existsb_exists in C1. destruct C1 as [path' [K Q]]. unfold path_eqb in Q. destruct (list_eq_dec string_dec path path') as [->|]; [exact K|discriminate Q].
  - intros c J. rewrite forallb_forall in C2. exact (C2 c J).
  - intro S. rewrite S in C3. exact C3.
Qed.
Lemma citable_html c : citable c = true -> exists l, cite_html c = Some l.
Proof. unfold citable, cite_html. intro H. apply andb_true_iff in H. destruct H as [-> H]. destruct (cite_title c); [eauto|discriminate H]. Qed.
Section Texts.
Context {Ctx : Type}.
Variable resolve : Ctx -> list string -> option (list N * data).
Variable magic : Ctx -> string -> str -> option (list N).
Variable error_of : Ctx -> option failure.
Variable c : Ctx.
Hypothesis M : forall cls t, exists ids, magic c cls t = Some ids.
Fixpoint elem_shown (e : elem) {struct e} : (forall path, In path (elem_paths e) -> exists r, resolve c path = Some r) -> (forall k, In k (elem_cites e) -> citable k = true) -> exists l, elem_html resolve magic c e = Some l.
Proof.
  destruct e as [t|cls t refers|path|k quote]; cbn [elem_html]; intros P K.
  - eauto.
  - destruct refers; [|cbn [option_map]; eauto]. destruct (M cls t) as [ids ->]. cbn [option_map]. eauto.
  - destruct (P path (or_introl eq_refl)) as [[ids d] ->]. eauto.
  - destruct (citable_html (K k (or_introl eq_refl))) as [l ->]. cbn [elem_paths elem_cites] in P, K.
    assert (Q : exists q, all_of (elem_html resolve magic c) quote = Some q).
    { clear l. induction quote as [|e quote IH]; cbn [all_of]; [eauto|]. cbn [flat_map] in P, K.
      destruct (elem_shown e) as [a ->]; [intros; apply P; apply in_or_app; now left|intros; apply K; right; apply in_or_app; now left|].
      destruct IH as [b ->]; [intros; apply P; apply in_or_app; now right|intros k' [<-|J]; apply K; [now left|right; apply in_or_app; now right]|]. eauto. }
    destruct Q as [q Q]. rewrite Q. destruct quote; eauto.
Qed.
Lemma elems_shown es : (forall path, In path (flat_map elem_paths es) -> exists r, resolve c path = Some r) -> (forall k, In k (flat_map elem_cites es) -> citable k = true) -> exists l, all_of (elem_html resolve magic c) es = Some l.
Proof.
  intros P K. apply all_of_some. intros e I. apply elem_shown; [intros path J; apply P|intros k J; apply K]; apply in_flat_map; eauto.
Qed.
Lemma notice_shown anchor id title explanation sv : severity_of id = Some sv -> template_of id = Some (title, explanation) ->
  (forall path, In path (flat_map elem_paths title ++ flat_map block_paths explanation) -> exists r, resolve c path = Some r) ->
  (forall k, In k (flat_map elem_cites title ++ flat_map block_cites explanation) -> citable k = true) ->
  (shows_exception explanation = true -> exists e l, error_of c = Some e /\ failure_html e = Some l) ->
  exists l, notice_html resolve magic error_of anchor (id, c) = Some l.
Proof.
  intros SV T P K X. unfold notice_html. cbn [fst snd]. rewrite SV, T.
  destruct (@elems_shown title) as [t ->]; [intros; apply P, in_or_app; now left|intros; apply K, in_or_app; now left|].
  destruct (@all_of_some _ _ (block_html resolve magic error_of c) explanation) as [b ->]; [|eauto]. intros b I. destruct b as [l| |path]; cbn [block_html].
  - destruct (@elems_shown l) as [q ->]; [intros; apply P, in_or_app; right; apply in_flat_map; exists (Para l); auto|intros; apply K, in_or_app; right; apply in_flat_map; exists (Para l); auto|]. cbn [option_map]. eauto.
  - destruct X as (e & l & -> & ->); [|eauto]. apply existsb_exists. exists Exception_. auto.
  - destruct (P path) as [[ids d] ->]; [|eauto]. apply in_or_app. right. apply in_flat_map. exists (Pointer path). split; [exact I|now left].
Qed.
End Texts.
(** An error that is a parse error names symbols, which cite what [grammar_cites] has. *)
Definition cites_grammar (e : failure) : Prop :=
  match e with FParse e => forall o name k, In o (pe_expected e) -> In (name, Some k) (snd o) -> In k grammar_cites | _ => True end.
Lemma grammar_citable k : In k grammar_cites -> citable k = true.
Proof. assert (C : forallb citable grammar_cites = true) by (vm_compute; reflexivity). rewrite forallb_forall in C. apply C. Qed.
Lemma detail_some d : (forall name k, d = Sym name (Some k) -> citable k = true) -> exists l, detail_html d = Some l.
Proof. destruct d as [t|name [k|]]; cbn [detail_html]; intro H; [eauto| |eauto]. destruct (citable_html (H name k eq_refl)) as [l ->]. eauto. Qed.
Lemma expected_symbols first o name k : In (Sym name k) (expected_para first o) -> In (name, k) (snd o).
Proof.
  unfold expected_para. intro I. apply in_app_or in I. destruct I as [I|I].
  - exfalso. destruct (fst o) as [[|a t]|]; try destruct I. apply in_app_or in I. destruct I as [I|I]; [destruct first; cbn [In] in I; intuition discriminate|]. destruct (snd o); cbn [In] in I; intuition discriminate.
  - destruct (snd o) as [|[n k'] l]; [destruct I|]. destruct I as [I|I]; [injection I as <- <-; now left|]. right. apply in_flat_map in I. destruct I as [[n' k''] [J [I|[I|[]]]]]; [discriminate I|]. injection I as <- <-. exact J.
Qed.
Lemma paragraph_symbols e para name k : cites_grammar (FParse e) -> In para (expand_parse_error e) -> In (Sym name (Some k)) para -> In k grammar_cites.
Proof.
  intros H I J. cbn [cites_grammar] in H. unfold expand_parse_error in I. rewrite !in_app_iff in I. destruct I as [I|[I|[I|[I|I]]]].
  - destruct (pe_name e) as [[|a t]|]; cbn [In] in I; try destruct I as [<-|[]]; try destruct I. cbn [In] in J. intuition discriminate.
  - destruct I as [<-|[]]. cbn [In] in J. intuition discriminate.
  - destruct (pe_found e) as [[|a t]|]; cbn [In] in I; try destruct I as [<-|[]]; try destruct I; cbn [In] in J; intuition discriminate.
  - destruct I as [<-|[]]. cbn [In] in J. intuition discriminate.
  - destruct (pe_expected e) as [|o l] eqn:X; [destruct I|]. destruct I as [<-|I]; [apply (H o name k); [now left|exact (expected_symbols J)]|].
    apply in_map_iff in I. destruct I as [o' [<- I]]. apply (H o' name k); [now right|exact (expected_symbols J)].
Qed.
Lemma failure_shown e : cites_grammar e -> exists l, failure_html e = Some l.
Proof.
  intro H. destruct e as [e|t|name]; cbn [failure_html]; [|eauto..]. apply all_of_some. intros para I.
  destruct (@all_of_some _ _ detail_html para) as [l ->]; [|cbn [option_map]; eauto]. intros d D. apply detail_some. intros name k ->. exact (grammar_citable (paragraph_symbols H I D)).
Qed.

Section Checked.
Variable E : env.
Hypothesis http : parses_http (e_read E).
Variable x : exchange.
Hypothesis F : finished E x.

(** ** All headers have been read *)
Lemma each_view_done j name : snd (check_each_header j E) = Ok tt -> exists v, snd (ChecksBase.view j name E) = Ok v.
Proof.
  intro R. destruct (class_of_total name) as [c C]. unfold ChecksBase.view. rewrite C.
  destruct (enumerate (m_entries (j_msg j)) name) as [|[p e] l] eqn:L.
  - assert (B : has_bad (v_value (parse_view (e_read E) c (m_entries (j_msg j)) name)) = false) by (unfold parse_view; rewrite L; destruct c as [| | |[]]; reflexivity).
    rewrite B. cbn [snd]. eauto.
  - assert (J : In (p, e) (enumerate (m_entries (j_msg j)) name)) by (rewrite L; now left). apply enumerate_in in J. destruct J as [J1 J2].
    destruct (proj1 (proj2 (C33_names (m_entries (j_msg j)))) p e J1) as [name' [N B]].
    assert (V : view_is (e_read E) (m_entries (j_msg j)) name' (parse_view (e_read E) c (m_entries (j_msg j)) name)).
    { apply (C33_case (e_read E) _ _ (a := name)); [|apply view_is_iff; eauto]. apply same_name_lower. apply same_name_lower in B. congruence. }
    unfold check_each_header in R. apply bind_done in R. destruct R as [[] [R _]]. apply each_done with (y := name') in R; [|exact N].
    apply bind_done in R. destruct R as [r [_ R]]. apply bind_done in R. destruct R as [v' [R2 _]].
    apply view_is_iff in V. destruct V as [c' [C' V]]. unfold ChecksBase.view in R2. rewrite C' in R2. rewrite <- V in R2. destruct (has_bad _); [discriminate R2|]. cbn [snd]. eauto.
Qed.
(** Each check that is common to all messages has finished. *)
Lemma message_check_done w j m : subject_at x w = Some j -> (forall tls, In m (message_checks j tls)) -> snd (m E) = Ok tt.
Proof.
  intros J I. pose proof F as R. unfold finished, check_exchange in R. apply bind_done in R. destruct R as [b [R0 R]]. unfold subject_at in J. destruct w as [|i].
  - destruct (x_request x) as [q|]; [|discriminate J]. cbn [option_map] in J. injection J as <-. apply bind_done in R0. destruct R0 as [[] [R0 _]]. unfold check_request in R0.
    refine (proj1 (@seq_within E m (request_checks q) _ R0)). unfold request_checks. apply in_or_app. right. apply in_or_app. left. apply I.
  - destruct (nth_error (x_responses x) i) as [p|] eqn:P; [|discriminate J]. cbn [option_map] in J. injection J as <-. apply bind_done in R. destruct R as [[] [R _]].
    destruct (responses_within P R) as [A _]. cbn [Nat.add] in A. unfold check_response in A. apply bind_done in A. destruct A as [[] [A _]].
    refine (proj1 (@seq_within E m (response_checks i p (x_request x)) _ A)). unfold response_checks. apply in_or_app. right. apply in_or_app. left. apply I.
Qed.
Lemma view_done w j name : subject_at x w = Some j -> exists v, view_value E x w name = Some v.
Proof.
  intro J. unfold view_value. rewrite J. destruct (@each_view_done j name) as [v ->]; [|eauto]. apply (message_check_done J). intro tls. unfold message_checks. now left.
Qed.
Lemma places_done w name : exists l, places E x w name = Some l.
Proof. unfold places. destruct (subject_at x w) as [j|] eqn:J; [|eauto]. destruct (view_done name J) as [v ->]. cbn [option_map]. eauto. Qed.

(** ** Bodies can be shown *)
Lemma subject_message w j : subject_at x w = Some j -> P_Safe.message_of x (j_msg j).
Proof.
  unfold subject_at. destruct w as [|i].
  - destruct (x_request x) as [q|] eqn:Q; [|discriminate]. cbn [option_map]. intro K. injection K as <-. exact (mo_request Q).
  - destruct (nth_error (x_responses x) i) as [p|] eqn:P; [|discriminate]. cbn [option_map]. intro K. injection K as <-. exact (mo_response (nth_error_In _ _ P)).
Qed.
Hypothesis typed : well_typed x.
Hypothesis library : ~ library_raises E.
Lemma displayable_done w j : subject_at x w = Some j -> exists r, snd (displayable_body j E) = Ok r.
Proof.
  intro J. assert (K : calm E (fun _ => False) (displayable_body j)).
  { apply (@displayable_ok E (fun _ => False) http (fun m => m = j_msg j)).
    - intros m -> C. destruct (view_done (s "Link") J) as [v V]. unfold view_value in V. rewrite J in V. apply has_bad_crashed in C. unfold got_view in C.
      destruct (class_of_total (s "Link")) as [c CL]. unfold ChecksBase.view in V. rewrite CL in V. rewrite CL in C. rewrite C in V. discriminate V.
    - intros m ->. apply typed. exact (subject_message J).
    - exact library.
    - reflexivity. }
  unfold calm, safe in K. destruct (snd (displayable_body j E)) as [r|e]; [eauto|destruct K].
Qed.
Lemma message_data_done remark_of read w j : subject_at x w = Some j -> exists g, message_data E x remark_of read w = Some g.
Proof.
  intro J. unfold message_data. rewrite J. assert (S : exists st, start_of x w = Some st).
  { unfold subject_at, start_of in *. destruct w as [|i]; [destruct (x_request x)|destruct (nth_error (x_responses x) i)]; try discriminate J; cbn [option_map]; eauto. }
  destruct S as [st ->]. destruct (displayable_done J) as [[v tr] ->]. eauto.
Qed.

(** ** Notices can be shown *)
Variable other : node -> str.
Variable id_of : thing -> N.
Variable failed : who * list (str * carg) -> failure.
Lemma magic_done c cls t : exists ids, magic_html E x id_of c cls t = Some ids.
Proof. unfold magic_html. destruct (String.eqb cls "FieldName"); [destruct (places_done (fst c) t) as [l ->]; cbn [option_map]; eauto|]. destruct (String.eqb cls "Method"); [eauto|]. destruct (String.eqb cls "StatusCode"); eauto. Qed.
Lemma views_ids_done w names : exists l, views_ids E x id_of w names = Some l.
Proof. induction names as [|n names [l IH]]; cbn [views_ids]; [eauto|]. destruct (places_done w n) as [k ->]. rewrite IH. eauto. Qed.
Lemma node_ids_done n : exists ids, node_ids E x id_of n = Some ids.
Proof.
  destruct n as [| |w name|v|a|]; cbn [node_ids]; try (eexists; reflexivity); [destruct (places_done w name) as [k ->]; cbn [option_map]; eauto|]. destruct a; try (eexists; reflexivity). apply views_ids_done.
Qed.
Lemma resolve_done c path n : resolve_reference E x (fst c) (snd c) path = Some n -> exists r, resolve_html E x other id_of c path = Some r.
Proof. intro R. unfold resolve_html. rewrite R. destruct (part_at E x c path) as [[w p]|]; [eauto|]. destruct (node_ids_done n) as [ids ->]. eauto. Qed.
Lemma said_shown {Ctx} resolve magic error_of (c : Ctx) w id ctx : P_Exchange.said E x w id ctx -> cites_grammar (failed (w, ctx)) ->
  resolve c = resolve_html E x other id_of (w, ctx) -> magic c = magic_html E x id_of (w, ctx) -> error_of c = error_html failed (w, ctx) ->
  exists h, notice_html resolve magic error_of false (id, c) = Some h.
Proof.
  intros H G R1 R2 R3. destruct (C54_shown http H) as [_ [n [I [<- [R X]]]]]. destruct (template_complete I) as (title & explanation & T & P & K & Ex).
  assert (SV : exists sv, severity_of (c_id n) = Some sv).
  { unfold severity_of. destruct (find (fun n0 => (c_id n0 =? c_id n)%N) catalogue) as [n'|] eqn:Fd; [cbn [option_map]; eauto|]. exfalso. pose proof (find_none _ _ Fd n I) as Q. cbv beta in Q. rewrite N.eqb_refl in Q. discriminate Q. }
  destruct SV as [sv SV]. refine (@notice_shown _ _ _ _ c _ _ _ _ _ _ SV T _ K _).
  - rewrite R2. exact (magic_done (w, ctx)).
  - intros path J. rewrite R1. destruct (R path (P path J)) as [r Fd]. exact (@resolve_done (w, ctx) path r Fd).
  - intro S. rewrite R3. destruct (X (Ex S)) as [e J]. destruct (failure_shown G) as [l L]. exists (failed (w, ctx)), l. split; [|exact L]. unfold error_html. cbn [snd].
    destruct (find _ ctx) eqn:Fd; [reflexivity|]. exfalso. pose proof (find_none _ _ Fd _ J) as Q. cbv beta in Q. cbn [fst] in Q. rewrite str_eqb_refl in Q. discriminate Q.
Qed.
End Checked.

(** ** The whole report *)
Lemma place_of_number e w : message_place (message_number e w) = (e, w).
Proof. unfold message_place, message_number. rewrite Cantor.cancel_of_to. destruct w; reflexivity. Qed.
Lemma message_numbers exchange_at e m : In m (messages_of (request_number exchange_at) (response_numbers exchange_at) e) -> exists w j, m = message_number e w /\ subject_at (exchange_at e) w = Some j.
Proof.
  unfold messages_of, request_number, response_numbers. intro I. apply in_app_or in I. destruct I as [I|I].
  - destruct (x_request (exchange_at e)) as [q|] eqn:Q; [|destruct I]. destruct I as [<-|[]]. exists Req, (of_request q). split; [reflexivity|]. unfold subject_at. rewrite Q. reflexivity.
  - apply in_map_iff in I. destruct I as [i [<- I]]. apply in_seq in I. destruct (nth_error (x_responses (exchange_at e)) i) as [p|] eqn:P; [|apply nth_error_None in P; lia].
    exists (Resp i), (of_response i p (x_request (exchange_at e))). split; [reflexivity|]. unfold subject_at. rewrite P. reflexivity.
Qed.
(** C73.  When all exchanges have been checked (with bodies of the documented types, and
    libraries that behave), each visible notice on a message is one that the checks
    reported, and those on exchanges can be shown, the report is complete. *)
Theorem C73_checked : forall E exchange_at other id_of failed remark_of read visible es,
  parses_http (e_read E) -> ~ library_raises E ->
  (forall e, In e es -> finished E (exchange_at e) /\ well_typed (exchange_at e)) ->
  (forall e c, cites_grammar (failed e c)) ->
  (forall e w id c, In e es -> In (id, c) (visible (Msg (message_number e w))) -> fst c = e /\ P_Exchange.said E (exchange_at e) (fst (snd c)) id (snd (snd c))) ->
  (forall e, In e es -> visible (Exch e) = []) ->
  snd (report_html E exchange_at other id_of failed remark_of read visible es) = true.
Proof.
  intros E exchange_at other id_of failed remark_of read visible es http L F G V X. apply C73_finished.
  - intros e m I J. destruct (message_numbers J) as (w & j & -> & Sj). unfold message_in. rewrite place_of_number. destruct (F e I) as [F1 F2]. exact (message_data_done http F1 F2 L (remark_of e) read Sj).
  - intros e m [id [e' [w' ctx]]] I J K. destruct (message_numbers J) as (w & j & -> & Sj). destruct (V e w id _ I K) as [Q S]. cbn [fst snd] in Q, S. subst e'. destruct (F e I) as [F1 F2].
    apply (@said_shown E http (exchange_at e) F1 other (id_of e) (failed e) _ _ _ _ (e, (w', ctx)) w' id ctx S (G e _)); reflexivity.
  - intros e c I J. rewrite (X e I) in J. destruct J.
Qed.
Print Assumptions C73_checked.

(** A concrete case: the response of [gzipped_exchange], with all the notices that checking
    reports on it (here also repeated ones, which [complain] drops). *)
Definition html_env : env := let E := gzipped_env in {|
  e_read := e_read E; e_now := e_now E; e_gzip := e_gzip E; e_deflate := e_deflate E; e_brotli := e_brotli E; e_codec := e_codec E; e_decode := e_decode E;
  e_replace := e_replace E; e_json := e_json E; e_xml := e_xml E; e_email := fun _ => Got (Email [] None); e_qs := e_qs E; e_url := e_url E; e_join := e_join E;
  e_base64 := e_base64 E; e_fnmatch := e_fnmatch E |}.
Definition html_visible (o : obj) : list (N * (nat * (who * list (str * carg)))) :=
  if obj_eqb o (Msg (message_number 0 (Resp 0)))
  then flat_map (fun e => match e with Said w id ctx => [(id, (0, (w, ctx)))] | Silenced _ _ => [] end) (fst (check_exchange gzipped_exchange html_env))
  else [].
Definition html_example : list html * bool :=
  report_html html_env (fun _ => gzipped_exchange) (fun _ => s "?") (fun _ _ => 7%N) (fun _ _ => FOther (s "no gzip")) (fun _ _ => None) (fun _ _ => None) html_visible [0].
Lemma html_env_behaves : ~ library_raises html_env.
Proof. intro L. destruct L as [x L|c x L|x L|x L|x L|x L|x L|x L|x y L]; try discriminate L. cbn in L. destruct (str_eqb x _); discriminate L. Qed.
Lemma gzipped_typed : well_typed gzipped_exchange.
Proof. intros m M. destruct M as [q M|p [<-|[]]]; [discriminate M|]. split; [exact Logic.I|split; intros v V; discriminate V]. Qed.
Example C73_example :
  parses_http (e_read html_env) /\ finished html_env gzipped_exchange /\
  (forall e w id c, In e [0] -> In (id, c) (html_visible (Msg (message_number e w))) -> fst c = e /\ P_Exchange.said html_env gzipped_exchange (fst (snd c)) id (snd (snd c))) /\
  snd html_example = true /\
  map (fun h => map text_of (found "ident" h)) (fst html_example) = [map s ["1293"; "1037"; "1037"; "1294"; "1110"]].
Proof.
  split; [change (parses_http (e_read gzipped_env)); apply (@env_parses 600); repeat apply Forall_cons; try apply Forall_nil; vm_compute; reflexivity|].
  assert (F : finished html_env gzipped_exchange) by (vm_compute; reflexivity). split; [exact F|].
  assert (V : forall e w id c, In e [0] -> In (id, c) (html_visible (Msg (message_number e w))) -> fst c = e /\ P_Exchange.said html_env gzipped_exchange (fst (snd c)) id (snd (snd c))).
  { intros e w id c [<-|[]] I. unfold html_visible in I. destruct (obj_eqb _ _); [|destruct I]. apply in_flat_map in I. destruct I as [[w' id' ctx|] [I J]]; [|destruct J]. destruct J as [J|[]].
    injection J as <- <-. split; [reflexivity|exact I]. }
  split; [exact V|]. split; vm_compute; reflexivity.
Qed.
