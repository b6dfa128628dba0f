(** Which notices reading and looking up headers can make, and what they
    carry. *)
From Coq Require Import ZifyBool ZifyNat ZifyN String.
From Verif Require Import Base Earley Grammar GrammarSem Syntax Actions Nested Parse Reading P_Types Text Structure Known Header HeaderProofs Complaints.
Open Scope nat_scope.
Open Scope list_scope.
Unset Strict Implicit.
Local Open Scope string_scope.
Local Open Scope list_scope.

(** A complaint is one of those listed, and has at least the keys listed. *)
Definition carries {A} (t : list (N * list string)) (c : N * list (str * A)) : Prop :=
  exists keys, In (fst c, keys) t /\ forall k, In k keys -> In (s k) (map fst (snd c)).

(** By functions of the grammar (the lines are with [pyf] in Grammar.v). *)
Definition plain_notices : list (N * list string) :=
  [(1282%N, ["bad"; "good"]); (1017%N, ["char"]); (1014%N, ["num"]); (1015%N, []); (1151%N, []); (1222%N, ["date"]); (1223%N, ["time"]);
   (1107%N, []); (1108%N, ["date"; "claimed"; "actual"]); (1119%N, []); (1133%N, []); (1148%N, []); (1196%N, []);
   (1256%N, ["actual"; "correct"]); (1254%N, ["charset"; "error"]); (1253%N, ["charset"])].
(** By those that call the parser again. *)
Definition nested_notices : list (N * list string) :=
  [(1257%N, ["error"; "authority"]); (1309%N, []); (1225%N, ["name"]); (1307%N, []); (1308%N, []); (1226%N, []); (1158%N, ["error"; "name"; "value"])].
Definition grammar_notices : list (N * list string) := plain_notices ++ nested_notices.
(** By views of headers (httpolice/header.py). *)
Definition view_notices : list (N * list string) :=
  [(1000%N, ["error"; "place"]); (1299%N, ["entry"]); (1300%N, ["entry"]); (1156%N, ["entry"; "name"]); (1157%N, ["entry"; "name"]);
   (1158%N, ["error"; "place"; "name"; "value"]); (1154%N, ["directive"]); (1155%N, ["directive"]); (1296%N, ["entry"; "param"]);
   (1297%N, ["entry"; "n_elements"]); (1026%N, ["entry"]); (1013%N, ["header"; "entries"])].
Definition header_notices : list (N * list string) := map (fun e => (fst e, "place" :: snd e)) grammar_notices ++ view_notices.

(** ** Proofs *)

Lemma carries_incl {A} t t' (c : N * list (str * A)) : incl t t' -> carries t c -> carries t' c.
Proof. intros I [keys [H K]]. exists keys. auto. Qed.
Lemma carries_more {A} t (c : N * list (str * A)) extra : carries t c -> carries t (fst c, extra ++ snd c).
Proof. intros [keys [H K]]. exists keys. split; [exact H|]. intros k I. cbn [snd]. rewrite map_app. apply in_or_app. auto. Qed.

Ltac key_in := intros ? K; cbn [In] in K; repeat (destruct K as [<-|K]); try contradiction; cbn [fst snd map In app]; tauto.
Ltac listed := eexists; split; [cbn [fst plain_notices nested_notices view_notices In grammar_notices app]; repeat (first [left; reflexivity|right])|key_in].

Definition no_nested (p : pyf) : bool := match p with PCheckAltAuthority | PProcessParams => false | _ => true end.
Lemma to_date_ok d m y : Forall (carries plain_notices) (snd (to_date d m y)).
Proof. unfold to_date. destruct (valid_date y m d); cbn [snd]; [apply Forall_nil|]. apply Forall_cons; [listed|apply Forall_nil]. Qed.
Lemma plain_ok nst p args : no_nested p = true -> Forall (carries plain_notices) (snd (pyfun nst p args)).
Proof.
  intro N. destruct p; try discriminate N; clear N; cbv beta iota delta [pyfun];
    repeat match goal with |- context [match ?x with _ => _ end] => is_var x; destruct x; cbn [snd]; try apply Forall_nil end;
    try (match goal with |- context [let (_, _) := to_date ?a ?b ?c in _] => pose proof (to_date_ok a b c) as D; destruct (to_date a b c); exact D end);
    unfold to_date, to_time, check_day_of_week, check_media_type, check_protocol_id, check_ext_value;
    repeat match goal with |- context [match ?x with _ => _ end] => destruct x; cbn [snd]; try apply Forall_nil end;
    try (apply Forall_cons; [listed|apply Forall_nil]).
Qed.

(** Every symbol uses nothing but functions. *)
Lemma uses_all x : uses (fun _ => true) true x = true.
Proof.
  assert (A : forall a, action_uses (fun _ => true) a = true) by (induction a; cbn; auto using andb_true_intro).
  induction x as [n b|i rs IH|i m y IH|n] using GrammarWF.symbol_ind'; cbn [uses]; auto. apply forallb_forall. intros r I. rewrite Forall_forall in IH. specialize (IH r I).
  apply andb_true_intro. split; [|apply A]. apply forallb_forall. rewrite Forall_forall in IH. exact IH.
Qed.
Lemma reads_complaints ok rec_ok nst (P : vcomplaint -> Prop) read :
  ok (FSubst (VList [])) = true /\ ok FContinueList = true /\ ok FBeginList = true -> (rec_ok = true -> forallb (rule_uses ok rec_ok) comment_rules = true) ->
  (forall f args, ok (FPy f) = true -> Forall P (snd (pyfun nst f args))) ->
  parses nst read -> forall x w v cs, uses ok rec_ok x = true -> read x w = Some (v, cs) -> Forall P cs.
Proof.
  intros L C G R x w v cs U H. destruct (R _ _ _ _ H) as [annotated [r [A [_ <-]]]]. apply reads_accepted in A. destruct A as [cs' [A Pm]].
  eapply Permutation.Permutation_Forall; [exact Pm|]. eapply means_complaints; try eassumption.
  intros Q n. unfold rec_rules. destruct (str_eqb n (s "comment")); [exact (C Q)|reflexivity].
Qed.

(** ** Symbols read by the functions that call the parser again *)
Definition plain_func (f : func) : bool := match f with FPy p => no_nested p | _ => true end.
Lemma plain_comment : forallb (rule_uses plain_func true) comment_rules = true.
Proof. vm_compute. reflexivity. Qed.
Lemma plain_reads nst again x w v cs : parses nst again -> uses plain_func true x = true -> again x w = Some (v, cs) -> Forall (carries plain_notices) cs.
Proof.
  intros P U H. eapply (@reads_complaints plain_func true); try eassumption; [repeat split|intros _; exact plain_comment|]. intros f args F. apply plain_ok. exact F.
Qed.
Lemma alt_authority_plain : uses plain_func true alt_authority_inner = true.
Proof. vm_compute. reflexivity. Qed.
Lemma link_params_plain : forallb (uses plain_func true) [URI_reference; rel; hreflang; type_8288; ext_value] = true.
Proof. vm_compute. reflexivity. Qed.
Lemma link_param_plain n x : link_param_syntax n = Some x -> uses plain_func true x = true.
Proof.
  intro H. apply (proj1 (forallb_forall _ _) link_params_plain). unfold link_param_syntax in H.
  repeat match type of H with (if ?b then _ else _) = _ => destruct b end; try discriminate H; injection H as <-; cbn [In]; tauto.
Qed.

Section Again.
Variable nst : pyf -> list val -> val * list vcomplaint.
Variable again : symbol -> str -> option (val * list vcomplaint).
Hypothesis again_parses : parses nst again.
Notation declared := (carries grammar_notices).

Lemma declared_plain {A} (c : N * list (str * A)) : carries plain_notices c -> declared c.
Proof. apply carries_incl. intros y I. apply in_or_app. now left. Qed.
Lemma declared_nested {A} (c : N * list (str * A)) : carries nested_notices c -> declared c.
Proof. apply carries_incl. intros y I. apply in_or_app. now right. Qed.
Ltac nested_one := apply declared_nested; listed.
Lemma parse_again_ok x text fail extra : uses plain_func true x = true -> declared (fail, parse_error :: extra) -> Forall declared (snd (parse_again again x text fail extra)).
Proof.
  intros U F. unfold parse_again. destruct (again x text) as [[v cs]|] eqn:R; cbn [snd]; [|now repeat constructor].
  pose proof (plain_reads again_parses U R) as H. apply Forall_forall. intros c I. apply in_map_iff in I. destruct I as [c' [<- I]].
  rewrite Forall_forall in H. apply carries_more, declared_plain. exact (H _ I).
Qed.
Lemma process_params_ok : forall params seen p r cs, process_params again seen p params = Some (r, cs) -> Forall declared cs.
Proof.
  induction params as [|x params IH]; intros seen p r cs H; cbn [process_params] in H.
  - injection H as _ <-. destruct (existsb _ seen); repeat constructor. nested_one.
  - destruct x; try discriminate H. destruct l as [|y l]; try discriminate H. destruct y; try discriminate H. destruct args as [|z args]; try discriminate H.
    destruct z; try discriminate H. destruct args; try discriminate H. destruct l as [|value l]; try discriminate H. destruct l; try discriminate H.
    cbv zeta in H. destruct (existsb (str_eqb (map lower_c x)) names_once && existsb (str_eqb (map lower_c x)) seen).
    { destruct (process_params again seen p params) as [[r' cs']|] eqn:R; [|discriminate H]. injection H as _ <-. constructor; [nested_one|eauto]. }
    set (seen' := if existsb (str_eqb (map lower_c x)) names_once then map lower_c x :: seen else seen) in *. clearbody seen'.
    set (n := map lower_c x) in *.
    assert (K : forall p' text, match (if str_eqb n (s "title") || str_eqb n (s "hreflang") then p' else Some []) with
       | Some p0 =>
         match link_param_syntax n, text with
         | Some _, None => None
         | x0, _ =>
           let (v, c3) := match x0, text with
              | Some x', Some t => parse_again again x' t 1158 [(s "name", VObj cls [VStr x]); (s "value", VStr t)]
              | _, Some t => (VStr t, [])
              | _, None => (VNone, [])
              end in
           match process_params again seen' p' params with
           | Some (r0, cs0) => Some (VTuple [VObj cls [VStr x]; v] :: r0,
                 (if str_eqb n (s "title") && str_eqb p0 (s "token") then [(1307%N, [])] else []) ++
                 (if str_eqb n (s "hreflang") && str_eqb p0 (s "quoted-string") then [(1308%N, [])] else []) ++
                 c3 ++ (if str_eqb n (s "rev") then [(1226%N, [])] else []) ++ cs0)
           | None => None
           end
         end
       | None => None
       end = Some (r, cs) -> Forall declared cs).
    { intros p' text Q. destruct (if _ || _ then p' else Some []) as [p0|]; [|discriminate Q].
      assert (O : forall (b : bool) k, declared (k, @nil (str * val)) -> Forall declared (if b then [(k, [])] else [])) by (intros [] k D; repeat constructor; exact D).
      assert (F : forall v c3, Forall declared c3 -> match process_params again seen' p' params with
           | Some (r0, cs0) => Some (VTuple [VObj cls [VStr x]; v] :: r0,
                 (if str_eqb n (s "title") && str_eqb p0 (s "token") then [(1307%N, [])] else []) ++
                 (if str_eqb n (s "hreflang") && str_eqb p0 (s "quoted-string") then [(1308%N, [])] else []) ++
                 c3 ++ (if str_eqb n (s "rev") then [(1226%N, [])] else []) ++ cs0)
           | None => None
           end = Some (r, cs) -> Forall declared cs).
      { intros v c3 D3 Z. destruct (process_params again seen' p' params) as [[r0 cs0]|] eqn:R; [|discriminate Z]. injection Z as _ <-.
        repeat (apply Forall_app; split); [apply O; nested_one|apply O; nested_one|exact D3|apply O; nested_one|eauto]. }
      destruct (link_param_syntax n) as [sx|] eqn:LS, text as [t|]; try discriminate Q.
      - pose proof (@parse_again_ok sx t 1158%N [(s "name", VObj cls [VStr x]); (s "value", VStr t)] (link_param_plain LS)) as PA.
        destruct (parse_again again sx t 1158 _) as [v c3]. eapply F; [|exact Q]. apply PA. nested_one.
      - eapply F; [|exact Q]. constructor.
      - eapply F; [|exact Q]. constructor. }
    destruct value; try discriminate H.
    + exact (K p None H).
    + destruct l as [|a l]; try discriminate H. destruct a; try discriminate H. destruct l as [|b l]; try discriminate H. destruct b; try discriminate H. destruct l; try discriminate H.
      exact (K (Some x0) (Some x1) H).
Qed.
Lemma nested_ok p args : Forall declared (snd (nested again p args)).
Proof.
  unfold nested. destruct p; try apply Forall_nil.
  - destruct args as [|a args]; [apply Forall_nil|]. destruct a; try apply Forall_nil. destruct args; [|apply Forall_nil].
    apply parse_again_ok; [exact alt_authority_plain|nested_one].
  - destruct args as [|a args]; [apply Forall_nil|]. destruct a; try apply Forall_nil. destruct args; [|apply Forall_nil].
    destruct (process_params again [] None l) as [[r cs]|] eqn:R; [|apply Forall_nil]. exact (process_params_ok R).
Qed.
End Again.

(** What reading any symbol complains about. *)
Lemma http_reads read x w v cs : parses_http read -> read x w = Some (v, cs) -> Forall (carries grammar_notices) cs.
Proof.
  intros [nst [again [P1 P2]]] H. eapply (@reads_complaints (fun _ => true) true); try eassumption; [auto|intros _; vm_compute; reflexivity| |apply uses_all].
  intros f args _. destruct (no_nested f) eqn:N.
  - eapply Forall_impl; [|apply plain_ok; exact N]. intros c. apply declared_plain.
  - assert (E : pyfun (nested again) f args = nested again f args) by (destruct f; try discriminate N; reflexivity). rewrite E. eapply nested_ok. exact P1.
Qed.

(** ** Symbols whose reading never complains *)
Definition silent_func (f : func) : bool := match f with FPy _ => false | _ => true end.
Definition silent (x : symbol) : bool := uses silent_func false x.
Lemma silent_reads read x w v cs : parses_http read -> silent x = true -> read x w = Some (v, cs) -> cs = [].
Proof.
  intros [nst [again [P1 P2]]] S H. assert (F : Forall (fun _ => False) cs).
  { eapply (@reads_complaints silent_func false); try eassumption; [repeat split|discriminate|]. intros f args F. discriminate F. }
  destruct F; [reflexivity|contradiction].
Qed.

(** ** Views *)
Section Views.
Variable read : symbol -> str -> option (val * list vcomplaint).
Hypothesis reads_http : parses_http read.
Notation Q := (@carries arg header_notices).

Lemma by_view (n : notice) : carries view_notices n -> Q n.
Proof. apply carries_incl. intros y I. apply in_or_app. now right. Qed.
Ltac view_one := apply by_view; listed.
Lemma placed_ok p extra c : carries grammar_notices c -> Q (placed p extra c).
Proof.
  intros [keys [I K]]. exists ("place" :: keys). split.
  - unfold header_notices. apply in_or_app. left. apply in_map_iff. exists (fst c, keys). auto.
  - intros k [<-|J]; [now left|]. right. cbn [snd placed]. rewrite map_app. apply in_or_app. right. rewrite map_map. cbn [fst]. exact (K _ J).
Qed.
Lemma read_placed_ok x w v cs p extra : read x w = Some (v, cs) -> Forall Q (map (placed p extra) cs).
Proof.
  intro R. pose proof (http_reads reads_http R) as H. apply Forall_forall. intros n I. apply in_map_iff in I. destruct I as [c [<- I]].
  apply placed_ok. rewrite Forall_forall in H. auto.
Qed.
Lemma process_pair_ok ci t p nm a : Forall Q (snd (process_pair read ci t p nm a)).
Proof.
  unfold process_pair. 
  assert (R : Forall Q (snd match match find_arg ci t (text_of nm) with Some i => ak_syntax i | None => None end with
          | Some x =>
              match read x (text_of a) with
              | Some (v, cs) => (parametrized nm v, map (placed p [(s "name", AVal nm); (s "value", AVal a)]) cs)
              | None => (parametrized nm (VUnavailable (VBytes (text_of a))),
                         [(1158%N, [error_arg; (s "place", AEntry p); (s "name", AVal nm); (s "value", AVal a)])])
              end
          | None => (parametrized nm a, [])
          end)).
  { destruct (match find_arg ci t (text_of nm) with Some i => ak_syntax i | None => None end) as [x|]; [|apply Forall_nil].
    destruct (read x (text_of a)) as [[v cs]|] eqn:E; cbn [snd]; [eapply read_placed_ok; exact E|]. constructor; [view_one|constructor]. }
  destruct a; cbv zeta; destruct (match find_arg ci t (text_of nm) with Some i => ak_argument i | None => None end) as [[]|]; try exact R; cbn [snd];
    try apply Forall_nil; (constructor; [view_one|constructor]).
Qed.
Lemma arguments_ok ci t p pr : Forall Q (snd (process_arguments read ci t p pr)).
Proof. unfold process_arguments. destruct (unpack2 pr) as [[nm a]|]; [apply process_pair_ok|constructor]. Qed.
Lemma each_ok f l : (forall v, Forall Q (snd (f v))) -> Forall Q (snd (each f l)).
Proof. intros Hf. induction l as [|v l IH]; [constructor|]. cbn. specialize (Hf v). destruct (f v), (each f l). cbn in *. now apply Forall_app. Qed.
Lemma each_of_ok f v : (forall v, Forall Q (snd (f v))) -> Forall Q (snd (each_of f v)).
Proof. intros Hf. destruct v; try constructor. cbn. pose proof (@each_ok f l Hf) as H. destruct (each f l). exact H. Qed.
Lemma directive_ok p pr : Forall Q (snd (process_directive read p pr)).
Proof.
  unfold process_directive. destruct (unpack2 pr) as [[nm a]|]; [|constructor]. destruct a; try constructor.
  - apply process_pair_ok.
  - destruct l as [|[] [|y [|]]]; try constructor.
    pose proof (process_pair_ok true cache_directive_table p nm y) as X. destruct (process_pair read true cache_directive_table p nm y) as [v ns]. cbn [snd] in *.
    apply Forall_app. split; [|exact X].
    repeat match goal with |- context [match ?x with _ => _ end] => destruct x end; try apply Forall_nil; (constructor; [view_one|constructor]).
Qed.
Lemma parsed_ok c p v : Forall Q (snd (process_parsed read c p v)).
Proof.
  destruct c as [| | |sp]; [constructor|constructor|constructor|]. destruct sp; cbn [process_parsed].
  - apply each_of_ok. intro. apply directive_ok.
  - apply each_of_ok. intro. apply arguments_ok.
  - assert (PL : forall w, Forall Q (snd (process_alternative read p w))).
    { intro w. unfold process_alternative. destruct w; try constructor. destruct args as [|i args]; [constructor|]. destruct args as [|d args]; [constructor|].
      destruct d; try constructor. destruct args as [|? ?]; [|destruct args0 as [|[] []]; constructor]. destruct args0 as [|[] [|]]; try constructor.
      pose proof (@each_ok (process_arguments read false alt_svc_param_table p) l (arguments_ok false alt_svc_param_table p)) as X.
      destruct (each (process_arguments read false alt_svc_param_table p) l). exact X. }
    destruct v; try (apply each_of_ok; exact PL). destruct (str_eqb x (s "clear")); constructor.
  - apply each_of_ok. intro w. unfold process_preference. destruct (unpack2 w) as [[pr ps]|]; [|constructor].
    pose proof (arguments_ok true preference_table p pr) as X. destruct (process_arguments read true preference_table p pr). exact X.
  - apply each_of_ok. intro. apply arguments_ok.
  - pose proof (@each_of_ok (each_of (process_arguments read true forwarded_param_table p)) v (fun w => @each_of_ok _ w (arguments_ok true forwarded_param_table p))) as X.
    destruct (each_of (each_of (process_arguments read true forwarded_param_table p)) v) as [v' ns]. cbn [snd] in X. destruct v'; try constructor. cbn [snd].
    apply Forall_app. split; [exact X|]. unfold check_elements. apply Forall_app. split.
    + apply Forall_forall. intros m0 I. apply in_flat_map in I. destruct I as [el [_ I]]. apply in_map_iff in I. destruct I as [nm [<- _]]. view_one.
    + repeat match goal with |- context [match ?x with _ => _ end] => destruct x end; try apply Forall_nil; (constructor; [view_one|constructor]).
Qed.
Lemma delims_ok name p v : Forall Q (check_quoted_delims name p v).
Proof.
  apply Forall_forall. intros m0 I. unfold check_quoted_delims in I. apply in_flat_map in I. destruct I as [x [_ I]]. rewrite in_app_iff in I.
  destruct (flag_of hk_quoted_comma_bad name && existsb (N.eqb 44) x), (flag_of hk_quoted_semicolon_bad name && existsb (N.eqb 59) x); cbn [In] in I;
    repeat match goal with H : _ \/ _ |- _ => destruct H end; subst; try contradiction; view_one.
Qed.
Lemma entry_ok c name p e : Forall Q (snd (read_entry read c name p e)).
Proof.
  unfold read_entry. destruct (syntax_for name) as [x|]; [|constructor]. destruct (read x (e_value e)) as [[v cs]|] eqn:R.
  - pose proof (@read_placed_ok x (e_value e) v cs p [] R) as PC.
    destruct (is_unavailable v); [exact PC|]. pose proof (parsed_ok c p v) as PS. destruct (process_parsed read c p v) as [v' ns]. cbn [snd] in *.
    apply Forall_app. split; [exact PC|]. apply Forall_app. split; [exact PS|apply delims_ok].
  - constructor; [|constructor]. view_one.
Qed.
Lemma pre_parse_ok c name l : Forall Q (snd (pre_parse read c name l)).
Proof.
  induction l as [|[p e] l IH]; cbn [pre_parse]; [constructor|]. destruct (pre_parse read c name l) as [[es vs] ns]. cbn [snd] in IH.
  destruct (fst p && is_bad_for_trailer name); cbn [snd]; [constructor; [view_one|exact IH]|].
  pose proof (entry_ok c name p e) as H. destruct (read_entry read c name p e) as [v ns1]. cbn [snd] in *. apply Forall_app. auto.
Qed.
(** Parsing a header reports only notices listed. *)
Lemma view_ok c m name : Forall Q (v_notices (parse_view read c m name)).
Proof.
  unfold parse_view. pose proof (pre_parse_ok c name (enumerate m name)) as H. destruct (pre_parse read c name (enumerate m name)) as [[es vs] ns]. cbn [snd] in H.
  assert (U : forall ns', (ns' = [] \/ ns' = [(1013%N, [(s "header", AHeader (lower name)); (s "entries", AEntries (map fst es))])]) -> Forall Q (ns ++ ns')).
  { intros ns' [->| ->]; apply Forall_app; split; try exact H; [constructor|]. constructor; [view_one|constructor]. }
  assert (S : Forall Q (v_notices (let '(es', v, ns') := parse_single name es vs in View es' v (ns ++ ns')))).
  { unfold parse_single. destruct (rev es), (rev vs); try (apply U; now left). destruct (Nat.ltb 1 (List.length es)); apply U; auto. }
  assert (K : Forall Q (v_notices (let '(es', v, ns') := parse_multi name es vs in View es' v (ns ++ ns')))).
  { unfold parse_multi. destruct (filter _ vs); [apply U; now left|]. destruct (Nat.eqb (List.length l) 0 && Nat.eqb (List.length es) 1); apply U; auto. }
  destruct c as [| | |[]]; cbn [combine_entries]; first [exact S|exact K|apply U; now left].
Qed.
End Views.
