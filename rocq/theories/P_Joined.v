(** C83: the framing and the checks see the same Content-Length and
    Transfer-Encoding; C84: what is reported on traffic given as bytes. *)
From Coq Require Import ZifyBool ZifyNat ZifyN String Permutation.
From Verif Require Import Base Earley Grammar Syntax Actions Reading Nested NestedTypes HttpText Types P_Types Text Structure Known Tables Header HeaderProofs P_Header P_Views Values
  P_Earley P_Grammar ViewFacts ChecksBase ChecksResponse SafeMessage P_Safe P_Exchange ChecksExample HeaderValue RulesBase Rules RulesOfResponse ChecksLogic ChecksFacts ChecksSays ChecksTop ChecksViews P_Rules Joined.
From Verif Require Stream Framing FramingSpec FramingMessages P_FramingRuns P_FramingRuns P_FramingBodies P_FramingWire P_Values FramingIds Notices.
Open Scope nat_scope.
Open Scope list_scope.
Unset Strict Implicit.
Local Open Scope string_scope.
Local Open Scope list_scope.

(** ** C83 *)

(** The entries of a message with any trailer. *)
Definition with_trailer (es : list Framing.entry) (tr : list entry) : entries := Entries (map seen_entry es) tr.

Lemma number_values {A} (f : A -> bool) (l : list A) : forall n, map snd (filter (fun x => f (snd x)) (number n l)) = filter f l.
Proof. induction l as [|x l IH]; intro n; [reflexivity|]. cbn [number filter snd]. destruct (f x); cbn [map snd]; now rewrite IH. Qed.
Lemma kept_values m name : is_bad_for_trailer name = true ->
  map snd (filter (kept name) (enumerate m name)) = filter (fun e => ci_eq name (e_name e)) (header_entries m).
Proof.
  intro B. unfold enumerate. rewrite filter_app, map_app.
  assert (A1 : forall l : list (nat * entry), filter (kept name) (map (fun x => ((false, fst x), snd x)) l) = map (fun x => ((false, fst x), snd x)) l).
  { induction l as [|x l IH]; [reflexivity|]. cbn [map filter]. unfold kept at 1. cbn [fst andb negb]. now rewrite IH. }
  assert (A2 : forall l : list (nat * entry), filter (kept name) (map (fun x => ((true, fst x), snd x)) l) = []).
  { induction l as [|x l IH]; [reflexivity|]. cbn [map filter]. unfold kept at 1. cbn [fst andb]. rewrite B. exact IH. }
  rewrite A1, A2, map_map, app_nil_r. cbn [snd]. apply (number_values (fun e => ci_eq name (e_name e))).
Qed.
Lemma lowers_alike x : Structure.lower x = Base.lower x.
Proof.
  unfold Structure.lower, Base.lower. apply map_ext. intro c. unfold lower1, is_upper, lower_char. destruct ((65 <=? c) && (c <=? 90))%N; reflexivity.
Qed.
Lemma seen_values name es : filter (fun e => ci_eq (s name) (e_name e)) (map seen_entry es) = map seen_entry (filter (Framing.is_field name) es).
Proof.
  induction es as [|e es IH]; [reflexivity|]. cbn [map filter]. replace (ci_eq (s name) (e_name (seen_entry e))) with (Framing.is_field name e) by (unfold ci_eq, Framing.is_field, ci_eqb; now rewrite !lowers_alike).
  destruct (Framing.is_field name e); cbn [map]; now rewrite IH.
Qed.
Lemma length_known : exists i, known_as i (s "Content-Length") /\ hk_rule i = Some RSingle /\ hk_syntax i = Some Content_Length.
Proof.
  assert (H : match header_of (s "Content-Length") with Some i => hk_rule i = Some RSingle /\ hk_syntax i = Some Content_Length | None => False end) by (vm_compute; split; reflexivity).
  destruct (header_of (s "Content-Length")) as [i|] eqn:Q; [|destruct H]. exists i. split; [now apply known_as_iff|exact H].
Qed.
Lemma coding_known : exists i, known_as i (s "Transfer-Encoding") /\ hk_rule i = Some RMulti /\ hk_syntax i = Some Transfer_Encoding.
Proof.
  assert (H : match header_of (s "Transfer-Encoding") with Some i => hk_rule i = Some RMulti /\ hk_syntax i = Some Transfer_Encoding | None => False end) by (vm_compute; split; reflexivity).
  destruct (header_of (s "Transfer-Encoding")) as [i|] eqn:Q; [|destruct H]. exists i. split; [now apply known_as_iff|exact H].
Qed.
Lemma both_forbidden : is_bad_for_trailer (s "Content-Length") = true /\ is_bad_for_trailer (s "Transfer-Encoding") = true.
Proof. vm_compute. split; reflexivity. Qed.

(** What the last Content-Length field says, for [cl_value]. *)
Lemma cl_read read nst ann w : faithful nst ann read Content_Length w ->
  match Framing.cl_parse w with
  | Framing.ClOk n => exists cs, read Content_Length w = Some (VInt (Z.of_N n), cs)
  | _ => read Content_Length w = None
  end.
Proof.
  intro F. unfold faithful in F. destruct (C11_content_length nst ann w) as [A [B C]]. unfold Framing.cl_parse.
  assert (D : negb (Stream.is_nil w) && forallb Base.is_digit w = true <-> all1 is_digit w).
  { unfold all1, HttpText.all. rewrite andb_true_iff, forallb_forall, Forall_forall. destruct w; cbn; split; intros [H1 H2]; (split; [try discriminate; auto|exact H2]). }
  destruct (negb (Stream.is_nil w) && forallb Base.is_digit w) eqn:Q.
  - destruct (read Content_Length w) as [[v cs]|].
    + destruct F as [r [R [-> ->]]]. destruct (C r R) as [cs [[H1 [H2 _]] _]]. eexists. rewrite H2, P_Values.dec_value_is. reflexivity.
    + destruct F as [e R]. destruct A as [r R']; [eexists; eexists; split; [now apply D|split; reflexivity]|]. pose proof (returns_unique R R') as X. discriminate X.
  - destruct (read Content_Length w) as [[v cs]|]; [|reflexivity]. destruct F as [r [R _]]. destruct (C r R) as [cs' [[H1 _] _]]. apply D in H1. discriminate H1.
Qed.

Lemma usable_values name es tr us : is_bad_for_trailer (s name) = true -> all_usable (with_trailer es tr) (s name) us ->
  map snd us = map seen_entry (filter (Framing.is_field name) es).
Proof.
  intros B U. rewrite (all_usable_unique U (kept_usable (with_trailer es tr) (s name))), (kept_values (with_trailer es tr) B). apply seen_values.
Qed.

(** C83.  Content-Length: the framing has one exactly if the checks do, and it is
    the same number; whatever is in the trailer. *)
Theorem C83_length : forall nst ann read es tr v, (forall w, faithful nst ann read Content_Length w) ->
  view_is read (with_trailer es tr) (s "Content-Length") v ->
  (FramingSpec.absent "Content-Length" es <-> v_value v = VNone) /\
  (forall n, FramingSpec.content_length es n <-> v_value v = VInt (Z.of_N n)) /\
  (v_value v = VNone \/ (exists n, v_value v = VInt (Z.of_N n)) \/ exists y, v_value v = VUnavailable y).
Proof.
  intros nst ann read es tr v F V. destruct length_known as [i [K [R X]]].
  destruct (C34_single K R (kept_usable (with_trailer es tr) (s "Content-Length")) V) as [N [L _]].
  pose proof (usable_values (proj1 both_forbidden) (kept_usable (with_trailer es tr) (s "Content-Length"))) as U.
  set (us := filter _ _) in *. rewrite FramingMessages.cl_absent_iff. setoid_rewrite FramingMessages.cl_ok_iff. unfold Framing.cl_value.
  destruct (rev us) as [|[q e] r] eqn:Q.
  - assert (E : us = []) by (rewrite <- (rev_involutive us), Q; reflexivity). destruct (N E) as [_ ->]. rewrite E in U. cbn [map] in U.
    destruct (filter (Framing.is_field "Content-Length") es); [|discriminate U]. cbn [rev]. split; [split; reflexivity|]. split; [split; discriminate|now left].
  - assert (E : us = rev r ++ [(q, e)]) by (rewrite <- (rev_involutive us), Q; reflexivity). destruct (L _ _ _ E) as [_ H]. rewrite E, map_app in U. cbn [map snd] in U.
    destruct (rev (filter (Framing.is_field "Content-Length") es)) as [|e' r'] eqn:Q'.
    { rewrite <- (rev_involutive (filter _ es)), Q' in U. cbn [rev map] in U. now destruct (map snd (rev r)). }
    assert (E' : filter (Framing.is_field "Content-Length") es = rev r' ++ [e']) by (rewrite <- (rev_involutive (filter _ es)), Q'; reflexivity).
    rewrite E', map_app in U. cbn [map] in U. apply app_inj_tail in U. destruct U as [_ ->].
    pose proof (cl_read (F (snd e'))) as C. unfold seen_entry in H. cbn [e_value] in H.
    assert (D : match Framing.cl_parse (snd e') with Framing.ClOk n => v_value v = VInt (Z.of_N n) | _ => exists y, v_value v = VUnavailable y end).
    { inversion H as [H1|j y u cs K' Sy Ry EQ|j y K' Sy Ry EQ].
      - destruct (H1 i _ K X).
      - rewrite (known_as_unique K' K), X in Sy. injection Sy as <-. destruct (Framing.cl_parse (snd e')); [congruence|congruence|]. destruct C as [cs' C]. congruence.
      - rewrite (known_as_unique K' K), X in Sy. injection Sy as <-. destruct (Framing.cl_parse (snd e')); [eauto|eauto|]. destruct C as [cs' C]. congruence. }
    unfold Framing.cl_parse in *. destruct (negb _ && _).
    + rewrite D. split; [split; discriminate|]. split; [|right; left; eauto]. intro n. split; intro Z; [injection Z as ->; reflexivity|]. injection Z as Z. f_equal. lia.
    + destruct D as [y ->]. split; [split; discriminate|]. split; [split; discriminate|right; right; eauto].
Qed.
Print Assumptions C83_length.

(** What the framing takes an element of the value of Transfer-Encoding to be. *)
Inductive coding : val -> option str -> Prop :=
| coding_named x ps : coding (VObj (s "Parametrized") [VObj (s "TransferCoding") [VStr x]; ps]) (Some x)
| coding_unread y : coding (VUnavailable y) None.
Lemma coding_fun v a b : coding v a -> coding v b -> a = b.
Proof. intros [x ps|y] H; inversion H; reflexivity. Qed.

Lemma read_fits read x sh w v cs : parses_http read -> forallb (inside sh) (infer nested_ty rec_ty x) = true -> read x w = Some (v, cs) -> fits sh v.
Proof.
  intros P C R. pose proof (http_typed P R) as H. apply hasu_iff in H. destruct H as [t [It Ht]]. eapply inside_ok; [|exact Ht]. exact (proj1 (forallb_forall _ _) C t It).
Qed.
Definition codings_shape : shape := Many (parametrized_by (P_Types.a "TransferCoding") (P_Types.params Name P_Types.Text)).
Lemma codings_inside : forallb (inside codings_shape) (infer nested_ty rec_ty Transfer_Encoding) = true.
Proof. vm_compute. reflexivity. Qed.
Lemma codings_read read w u c : parses_http read -> read Transfer_Encoding w = Some (u, c) -> exists l, u = VList l /\ Forall (fun y => exists x, coding y (Some x) /\ coding_name y = Some x) l.
Proof.
  intros P H. pose proof (read_fits P codings_inside H) as [l [-> Y]]. exists l. split; [reflexivity|]. eapply Forall_impl; [|exact Y]. intros y Fy.
  apply fits_make2 in Fy. destruct Fy as (n & ps & -> & Fn & _). apply fits_name in Fn. destruct Fn as [x ->]. exists x. split; [constructor|reflexivity].
Qed.
Theorem C83_codings : forall E es tr v, parses_http (e_read E) ->
  view_is (e_read E) (with_trailer es tr) (s "Transfer-Encoding") v ->
  forall cs, FramingSpec.transfer_codings (framing_env E) es cs <-> exists l, v_value v = VList l /\ Forall2 coding l cs.
Proof.
  intros E es tr v P V cs. destruct coding_known as [i [K [R X]]].
  destruct (C35_multi K R (kept_usable (with_trailer es tr) (s "Transfer-Encoding")) V) as [_ [vs [F [C _]]]].
  pose proof (usable_values (proj2 both_forbidden) (kept_usable (with_trailer es tr) (s "Transfer-Encoding"))) as U.
  set (us := filter _ _) in *. rewrite FramingMessages.te_value_iff.
  assert (S : forall w u c, e_read E Transfer_Encoding w = Some (u, c) -> exists l, u = VList l /\ Forall (fun y => exists x, coding y (Some x) /\ coding_name y = Some x) l).
  { intros w u c H. exact (codings_read P H). }
  assert (G : exists ls css, Forall2 contributes vs ls /\ Forall2 (Forall2 coding) ls css /\ Framing.te_value (framing_env E) es = List.concat css).
  { unfold Framing.te_value. clear C V R. revert U F. generalize us vs. clear us vs. induction es as [|e es IH]; intros us vs U F.
    - destruct us; [|discriminate U]. inversion F. exists [], []. repeat split; constructor.
    - cbn [filter map flat_map] in *. destruct (Framing.is_field "Transfer-Encoding" e); [|now apply (IH us vs)].
      destruct us as [|[q e'] us]; [discriminate U|]. cbn [map snd] in U. injection U as -> U. inversion F as [ | ? y ? vs' H F']. subst. destruct (IH us vs' U F') as (ls & css & G1 & G2 & G3).
      cbn [snd seen_entry e_value] in H. unfold framing_env at 1. cbn [Framing.te_parse]. inversion H as [H1|j z u c K' Sy Ry EQ|j z K' Sy Ry EQ].
      + destruct (H1 i _ K X).
      + subst u. rewrite (known_as_unique K' K), X in Sy. injection Sy as <-. rewrite Ry. destruct (S _ _ _ Ry) as [l [-> L]].
        exists (l :: ls), (map coding_name l :: css). split; [constructor; [constructor|exact G1]|]. split; [|cbn [List.concat]; now rewrite G3]. constructor; [|exact G2].
        clear - L. induction L as [|y l [x [A B]] L IH]; constructor; [now rewrite B|exact IH].
      + rewrite (known_as_unique K' K), X in Sy. injection Sy as <-. rewrite Ry. exists ([VUnavailable (VBytes (snd e))] :: ls), ([None] :: css).
        split; [constructor; [constructor|exact G1]|]. split; [|cbn [List.concat]; now rewrite G3]. constructor; [|exact G2]. repeat constructor. }
  destruct G as (ls & css & G1 & G2 & G3). specialize (C ls G1). rewrite G3, C.
  assert (G4 : Forall2 coding (List.concat ls) (List.concat css)). { clear - G2. induction G2; cbn [List.concat]; [constructor|]. now apply Forall2_app. }
  split.
  - intros <-. eauto.
  - intros [l [Q H]]. injection Q as <-. clear - G4 H. revert cs H. induction G4 as [|y c l m A B IH]; intros cs H; inversion H; subst; [reflexivity|]. f_equal; [now apply (@coding_fun y)|auto].
Qed.
Print Assumptions C83_codings.

(** ** C84 *)


(** Traffic without framing errors, and the exchanges in it: both directions,
    or only one (FramingSpec.v says what that looks like in bytes). *)
Inductive traffic (F : Framing.env) : option str -> option str -> list Framing.exchange -> Prop :=
| traffic_both i o ys : i <> [] -> o <> [] -> FramingSpec.conversation F 0 0 ys i o -> traffic F (Some i) (Some o) ys
| traffic_in i ys : i <> [] -> FramingSpec.conversation F 0 0 ys i [] -> traffic F (Some i) None ys
| traffic_out o ys : o <> [] -> FramingSpec.orphans_on_wire F 0 ys o -> traffic F None (Some o) ys.

(** The same message, part by part: in the traffic, and as it is checked. *)
Definition same_fields (es : list Framing.entry) (fs : list entry) : Prop := Forall2 (fun e f => fst e = e_name f /\ snd e = e_value f) es fs.
Inductive same_body : Framing.body -> val -> Prop :=
| same_bytes b : same_body (Framing.Body b) (VBytes b)
| same_undecoded b : same_body (Framing.Unavail (Some b)) (VUnavailable (VBytes b))
| same_unknown : same_body (Framing.Unavail None) (VUnavailable VNone).
Definition same_message (version : str) (m : Framing.message) (n : msg) : Prop :=
  m_version n = Some version /\ same_fields (Framing.entries m) (header_entries (m_entries n)) /\ same_fields (Framing.trailer m) (trailer_entries (m_entries n)) /\
  same_body (Framing.mbody m) (m_body n) /\ m_decoded n = None /\ m_unicode n = None.
Definition same_request (scheme : option str) (q : Framing.request) (r : request) : Prop :=
  q_method r = Framing.rq_method q /\ q_target r = Framing.rq_target q /\ q_scheme r = scheme /\ same_message (Framing.rq_version q) (Framing.rq_msg q) (q_msg r).
Definition same_response (p : Framing.response) (r : response) : Prop :=
  p_status r = Z.of_N (Framing.rs_status p) /\ p_reason r = Some (Framing.rs_reason p) /\ same_message (Framing.rs_version p) (Framing.rs_msg p) (p_msg r).
Inductive same_exchange (scheme : option str) : Framing.exchange -> exchange -> Prop :=
| same_pair q r ps rs : same_request scheme q r -> Forall2 same_response ps rs -> same_exchange scheme (Framing.Exchange (Some q) ps) (Exchange (Some r) rs)
| same_responses ps rs : Forall2 same_response ps rs -> same_exchange scheme (Framing.Exchange None ps) (Exchange None rs)
| same_box b : same_exchange scheme (Framing.ComplaintBox b) (Exchange None []).
Lemma seen_same_message v m : same_message v m (seen_message v m).
Proof.
  assert (F : forall es, same_fields es (map seen_entry es)) by (intro es; induction es as [|e es IH]; constructor; [split; reflexivity|exact IH]).
  repeat (split; [first [reflexivity|apply F|idtac]|]).
  all: cbn [seen_message m_body]; destruct (Framing.mbody m) as [b|[b|]]; constructor.
Qed.
Lemma seen_same scheme y : same_exchange scheme y (seen_exchange scheme y).
Proof.
  assert (R : forall ps, Forall2 same_response ps (map seen_response ps)).
  { intro ps. induction ps as [|p ps IH]; constructor; [|exact IH]. split; [reflexivity|]. split; [reflexivity|apply seen_same_message]. }
  destruct y as [[q|] ps|b]; cbn [seen_exchange option_map]; constructor; try apply R. split; [reflexivity|]. split; [reflexivity|]. split; [reflexivity|apply seen_same_message].
Qed.

(** C84.  Traffic without framing errors is checked as the exchanges in it would
    be, made by hand from the same methods, targets, versions, statuses,
    reasons, fields, trailers and bodies; what is reported on each follows from
    the rules (Rules.v) and from its fields. *)
Theorem C84_notices : forall E scheme i o ys, parses_http (e_read E) -> traffic (framing_env E) i o ys ->
  Forall2 (same_exchange scheme) ys (exchanges_from E scheme i o) /\
  forall x w id ctx, In x (exchanges_from E scheme i o) ->
    (said E x w id ctx -> required E x (Said w id ctx) \/ on_header E x (Said w id ctx)) /\
    (finished E x -> required E x (Said w id ctx) \/ on_header E x (Said w id ctx) -> said E x w id ctx).
Proof.
  intros E scheme i o ys http T. split.
  - enough (Q : exchanges_from E scheme i o = map (seen_exchange scheme) ys).
    { rewrite Q. clear. induction ys as [|y ys IH]; constructor; [apply seen_same|exact IH]. }
    unfold exchanges_from. f_equal. change (Framing.parse_streams ?F (option_map Stream.new_stream i) (option_map Stream.new_stream o)) with (P_FramingRuns.parse_bytes F i o).
    destruct T as [i o ys I O C|i ys I C|o ys O C].
    + apply P_FramingWire.C59_clean_runs_are_conversations in C; [|exact I|exact O]. apply C.
    + apply P_FramingWire.C59_clean_requests in C; [|exact I]. apply C.
    + apply P_FramingWire.C59_clean_responses in C; [|exact O]. apply C.
  - intros x w id ctx _. split; [now apply C67_sound|intros F H; now apply C67_complete].
Qed.
Print Assumptions C84_notices.

(** C84.  Whatever the bytes are: what comes out of them can be checked, up to
    the exceptions of C56; and no notice is reported on a message both by the
    framing and by the checks. *)
Theorem C84_checked : forall E scheme i o x e, parses_http (e_read E) -> In x (exchanges_from E scheme i o) ->
  snd (check_exchange x E) = Raise e -> blame E x e.
Proof.
  intros E scheme i o x e http I R. apply C56_blame; [exact http| |exact R]. unfold exchanges_from in I. apply in_map_iff in I. destruct I as [y [<- _]].
  assert (B : forall v m, proper (seen_message v m)).
  { intros v m. unfold proper, seen_message. cbn [m_body m_decoded m_unicode]. split; [|split; discriminate]. destruct (Framing.mbody m) as [b|[b|]]; cbn [seen_body].
    - exact Logic.I.
    - exact Logic.I.
    - exact Logic.I. }
  intros m M. destruct y as [q ps|b]; cbn [seen_exchange] in M; destruct M as [q' M|p P]; cbn [x_request x_responses] in *.
  - destruct q as [q|]; [|discriminate M]. injection M as <-. apply B.
  - apply in_map_iff in P. destruct P as [p' [<- _]]. apply B.
  - discriminate M.
  - destruct P.
Qed.
Print Assumptions C84_checked.

Definition from_framing (y : Framing.exchange) (n : Framing.note) : Prop :=
  match y with
  | Framing.Exchange q ps => (exists r, q = Some r /\ In n (Framing.notes (Framing.rq_msg r))) \/ (exists p, In p ps /\ In n (Framing.notes (Framing.rs_msg p)))
  | Framing.ComplaintBox _ => False
  end.
Lemma ids_apart : forallb (fun i => negb (existsb (N.eqb i) (rule_ids ++ map fst Notices.header_notices))) FramingIds.framing_ids = true.
Proof. vm_compute. reflexivity. Qed.
Theorem C84_apart : forall E scheme i o k y x n w id ctx, parses_http (e_read E) ->
  nth_error (Framing.yielded (P_FramingRuns.parse_bytes (framing_env E) i o)) k = Some y -> nth_error (exchanges_from E scheme i o) k = Some x ->
  from_framing y n -> said E x w id ctx -> Framing.n_id n <> id.
Proof.
  intros E scheme i o k y x n w id ctx http Y X N S <-.
  unfold exchanges_from in X. change (Framing.parse_streams ?F (option_map Stream.new_stream i) (option_map Stream.new_stream o)) with (P_FramingRuns.parse_bytes F i o) in X.
  rewrite nth_error_map, Y in X. cbn [option_map] in X. injection X as <-. apply nth_error_In in Y.
  assert (A : In (Framing.n_id n) FramingIds.framing_ids).
  { pose proof (FramingIds.streams_noted (framing_env E) (@FramingIds.new_calm i) (@FramingIds.new_calm o)) as F. rewrite Forall_forall in F. specialize (F y Y). destruct y as [q ps|b]; [|destruct N]. destruct F as [F1 F2].
    destruct N as [[r [Q N]]|[p [P N]]].
    - specialize (F1 r Q). unfold FramingIds.noted_as in F1. rewrite Forall_forall in F1. exact (FramingIds.allowed_ids (F1 n N)).
    - rewrite Forall_forall in F2. specialize (F2 p P). unfold FramingIds.noted_as in F2. rewrite Forall_forall in F2. exact (FramingIds.allowed_ids (F2 n N)). }
  pose proof (proj1 (forallb_forall _ _) ids_apart _ A) as D. cbv beta in D. apply negb_true_iff in D. rewrite <- not_true_iff_false in D. apply D. apply existsb_exists.
  exists (Framing.n_id n). split; [|apply N.eqb_refl]. apply in_or_app. pose proof (exchange_accounted http (seen_exchange scheme y)) as C. unfold emits in C. rewrite Forall_forall in C.
  destruct (C _ S) as [[u [m [name [v [k' [_ [V [I L]]]]]]]]|K]; [|now left].
  right. apply view_is_iff in V. destruct V as [c [_ ->]]. pose proof (Notices.view_ok http c (m_entries m) name) as Q. rewrite Forall_forall in Q. destruct (Q _ I) as [keys [J _]].
  injection L as _ -> _. apply in_map_iff. eexists. split; [|exact J]. reflexivity.
Qed.
Print Assumptions C84_apart.

(** *** An example *)

Definition small_texts : list (symbol * string * val) :=
  [(Transfer_Encoding, "Chunked", VList [VObj (s "Parametrized") [VObj (s "TransferCoding") [VStr (s "Chunked")]; VObj (s "MultiDict") [VList []]]]);
   (Content_Length, "0", VInt 0)].
Definition small_env : env := env_with small_texts.
Lemma small_parses : parses_http (e_read small_env).
Proof. apply (@env_parses 600 small_texts). repeat apply Forall_cons; try apply Forall_nil; vm_compute; reflexivity. Qed.
Definition small_in : str :=
  P_FramingRuns.crlf "POST /a HTTP/1.1" ++ P_FramingRuns.crlf "Host: b" ++ P_FramingRuns.crlf "Transfer-Encoding: Chunked" ++ P_FramingRuns.crlf "" ++
  P_FramingRuns.crlf "3" ++ P_FramingRuns.crlf "abc" ++ P_FramingRuns.crlf "0" ++ P_FramingRuns.crlf "".
Definition small_out : str := s "HTTP/1.1 204 Fine" ++ [10%N] ++ P_FramingRuns.crlf "Content-Length: 0" ++ P_FramingRuns.crlf "".
Definition small_run := Framing.yielded (P_FramingRuns.parse_bytes (framing_env small_env) (Some small_in) (Some small_out)).
Definition small_exchange : exchange := Exchange
    (Some (Request (Message (Some (s "HTTP/1.1")) (headers_of [("Host", "b"); ("Transfer-Encoding", "Chunked")]) (VBytes (s "abc")) None None) (Some (s "http")) (s "POST") (s "/a")))
    [Response (Message (Some (s "HTTP/1.1")) (headers_of [("Content-Length", "0")]) (VBytes []) None None) 204 (Some (s "Fine"))].
Definition says (w : who) (id : N) (e : event) : bool := match e, w with Said Req i [], Req => N.eqb i id | Said (Resp n) i [], Resp m => Nat.eqb n m && N.eqb i id | _, _ => false end.
Lemma small_says : existsb (says (Resp 0) 1023) (fst (check_exchange small_exchange small_env)) = true /\ existsb (says Req 1070) (fst (check_exchange small_exchange small_env)) = true /\
  (match snd (check_exchange small_exchange small_env) with Ok tt => true | _ => false end) = true.
Proof. vm_compute. repeat split; reflexivity. Qed.
Lemma says_in w id l : existsb (says w id) l = true -> In (Said w id []) l.
Proof.
  intro H. apply existsb_exists in H. destruct H as [e [I H]]. destruct e as [[|n] i [|]|], w as [|m]; cbn [says] in H; try discriminate H.
  - apply N.eqb_eq in H. now subst.
  - apply andb_true_iff in H. destruct H as [A B]. apply Nat.eqb_eq in A. apply N.eqb_eq in B. now subst.
Qed.
Definition response_notes (ys : list Framing.exchange) : list N :=
  map Framing.n_id (flat_map (fun y => match y with Framing.Exchange _ ps => flat_map (fun p => Framing.notes (Framing.rs_msg p)) ps | _ => [] end) ys).
Lemma response_note ys id l : response_notes ys = id :: l -> exists y n, In y ys /\ from_framing y n /\ Framing.n_id n = id.
Proof.
  intro E. assert (J : In id (response_notes ys)) by (rewrite E; now left). unfold response_notes in J.
  apply in_map_iff in J. destruct J as [n [J1 J]]. apply in_flat_map in J. destruct J as [y [Y J]]. exists y, n. split; [exact Y|]. split; [|exact J1].
  destruct y as [q ps|]; [|destruct J]. right. apply in_flat_map in J. destruct J as [p J]. exists p. exact J.
Qed.
Lemma small_seen : map (seen_exchange (Some (s "http"))) small_run = [small_exchange] /\
  response_notes small_run = [1224%N] /\
  Framing.how (P_FramingRuns.parse_bytes (framing_env small_env) (Some small_in) (Some small_out)) = Framing.Finished /\ forallb FramingSpec.clean_exchange small_run = true.
Proof. vm_compute. repeat split; reflexivity. Qed.
Example C84_example : parses_http (e_read small_env) /\ traffic (framing_env small_env) (Some small_in) (Some small_out) small_run /\
  In small_exchange (exchanges_from small_env (Some (s "http")) (Some small_in) (Some small_out)) /\ finished small_env small_exchange /\
  said small_env small_exchange (Resp 0) 1023 [] /\ said small_env small_exchange Req 1070 [] /\ exists y n, In y small_run /\ from_framing y n /\ Framing.n_id n = 1224%N.
Proof.
  destruct small_seen as (S1 & S2 & S3 & S4). destruct small_says as (A & B & C).
  split; [exact small_parses|]. split.
  { apply traffic_both; [discriminate|discriminate|]. apply P_FramingWire.C59_clean_runs_are_conversations; [discriminate|discriminate|]. split; [exact S3|]. split; [reflexivity|exact S4]. }
  split; [change (In small_exchange (map (seen_exchange (Some (s "http"))) small_run)); rewrite S1; now left|].
  split; [unfold finished; destruct (snd (check_exchange small_exchange small_env)) as [[]|]; [reflexivity|discriminate C]|].
  split; [exact (says_in A)|]. split; [exact (says_in B)|].
  exact (response_note S2).
Qed.

(** A reader that does what the parser does with Content-Length. *)
Definition digits_read (x : symbol) (w : str) : option (val * list vcomplaint) :=
  if negb (Stream.is_nil w) && forallb Base.is_digit w then Some (VInt (Z.of_N (decimal w)), []) else None.
Lemma digits_faithful nst ann w : faithful nst ann digits_read Content_Length w.
Proof.
  unfold faithful, digits_read. destruct (C11_content_length nst ann w) as [A [B C]].
  assert (D : negb (Stream.is_nil w) && forallb Base.is_digit w = true <-> all1 is_digit w).
  { unfold all1, HttpText.all. rewrite andb_true_iff, forallb_forall, Forall_forall. destruct w; cbn; split; intros [H1 H2]; (split; [try discriminate; auto|exact H2]). }
  destruct (negb _ && _).
  - destruct A as [r R]. { eexists. eexists. split; [now apply D|]. split; reflexivity. }
    exists r. split; [exact R|]. destruct (C r R) as [cs [[_ [H ->]] P]]. split; [now symmetry|]. apply Permutation_sym, Permutation_nil in P. now symmetry.
  - apply B. intros (v & cs & H & _). apply D in H. discriminate H.
Qed.
Example C83_example : (forall w, faithful (fun _ _ => (VNone, [])) (fun _ => false) digits_read Content_Length w) /\
  (exists v, view_is digits_read (with_trailer [(s "content-length", s "7"); (s "Content-Length", s "012")] [Entry (s "Content-Length") (s "5")]) (s "Content-Length") v /\ v_value v = VInt 12) /\
  (exists v, view_is (e_read small_env) (with_trailer [(s "Transfer-Encoding", s "Chunked"); (s "transfer-encoding", s ",;")] []) (s "Transfer-Encoding") v /\
     FramingSpec.transfer_codings (framing_env small_env) [(s "Transfer-Encoding", s "Chunked"); (s "transfer-encoding", s ",;")] [Some (s "Chunked"); None]).
Proof.
  split; [intro w; apply digits_faithful|]. split.
  - eexists. split; [apply view_is_iff; exists SingleView; split; [vm_compute; reflexivity|reflexivity]|]. vm_compute. reflexivity.
  - eexists. split; [apply view_is_iff; exists MultiView; split; [vm_compute; reflexivity|reflexivity]|]. apply FramingMessages.te_value_iff. vm_compute. reflexivity.
Qed.
