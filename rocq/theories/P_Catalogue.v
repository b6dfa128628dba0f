(** C54: every notice that is reported is in the catalogue, and everything that
    its text refers to can be found. *)
From Coq Require Import ZifyBool ZifyNat ZifyN String.
From Verif Require Import Base Earley Grammar Syntax Actions Nested P_Types Text Structure Known Tables Header P_Header P_Views Values Notices Catalogue ChecksBase ChecksLogic ChecksViews ChecksMessage ChecksRequest ChecksResponse ChecksSays ChecksTop ChecksExchange ChecksExample P_Exchange Reports.
Open Scope nat_scope.
Open Scope list_scope.
Unset Strict Implicit.
Local Open Scope string_scope.
Local Open Scope list_scope.

(** ** Specification *)

(** The message is part of the exchange. *)
Definition part_of (x : exchange) (w : who) : Prop :=
  match w with Req => exists q, x_request x = Some q | Resp i => exists p, response_at x i p end.
(** A notice can be shown: it is in the catalogue, each reference in its text
    leads somewhere, and if its text shows an exception there is one. *)
Definition can_be_shown (E : env) (x : exchange) (w : who) (id : N) (ctx : list (str * carg)) : Prop :=
  exists n, In n catalogue /\ c_id n = id /\
  (forall ref, In ref (c_refs n) -> exists found, resolve_reference E x w ctx ref = Some found) /\
  (c_exception n = true -> exists e, In (s "error", e) ctx).

(** ** Proofs *)

(** *** References that can be followed by looking at the exchange only *)
Inductive kind := IsRequest | IsResponse (with_request : bool).
Definition has_accessor (a : string) : bool := match accessor (map hk_key header_table) a with Some _ => true | None => false end.
Definition header_path (path : list string) : bool :=
  match path with
  | [a] => has_accessor a
  | [a; b] =>
      (String.eqb a "cache_control" && String.eqb b "max_age") ||
      (String.eqb b "value" && match accessor (map hk_key header_table) a with Some k => negb (ci_eq k (s "Link")) | None => false end)
  | _ => false
  end.
Fixpoint message_path (k : kind) (path : list string) : bool :=
  match path with
  | [] => true
  | a :: r =>
      if String.eqb a "headers" then header_path r
      else if existsb (String.eqb a) ["version"; "displayable_body"; "guessed_charset"] then match r with [] => true | _ => false end
      else match k with
           | IsRequest => existsb (String.eqb a) ["method"; "target"] && match r with [] => true | _ => false end
           | IsResponse b =>
               (String.eqb a "status" && match r with [] => true | _ => false end) ||
               (String.eqb a "request" && b && message_path IsRequest r)
           end
  end.
Definition can_follow (k : kind) (keys : list string) (ref : list string) : bool :=
  match ref with
  | [] => false
  | a :: r => if String.eqb a "msg" then message_path k r else existsb (String.eqb a) keys && match r with [] => true | _ => false end
  end.
Definition listed (k : kind) (e : N * list string) : bool :=
  existsb (fun n => if N.eqb (c_id n) (fst e) then forallb (can_follow k (snd e)) (c_refs n) && (negb (c_exception n) || existsb (String.eqb "error") (snd e)) else false) catalogue.
Definition all_listed (k : kind) (t : table) : bool := forallb (listed k) t.

Section Shown.
Variable E : env.
Hypothesis http : parses_http (e_read E).
Variable x : exchange.
Definition kind_ok (w : who) (k : kind) : Prop :=
  match w, k with
  | Req, IsRequest => exists q, x_request x = Some q
  | Resp i, IsResponse b => (exists p, response_at x i p) /\ (b = true -> exists q, x_request x = Some q)
  | _, _ => False
  end.
Lemma kind_subject w k : kind_ok w k -> exists j, subject_at x w = Some j /\ j_who j = w.
Proof.
  destruct w as [|i], k as [|b]; cbn [kind_ok]; try tauto.
  - intros [q Q]. exists (of_request q). unfold subject_at. rewrite Q. auto.
  - intros [[p A] _]. unfold response_at in A. exists (of_response i p (x_request x)). unfold subject_at. rewrite A. auto.
Qed.
Lemma value_there w j name : subject_at x w = Some j -> ~ P_Header.same_name name (s "Link") -> exists v, view_value E x w name = Some v /\ view_is (e_read E) (m_entries (j_msg j)) name v /\ has_bad (v_value v) = false.
Proof.
  intros J N. unfold view_value. rewrite J. destruct (view_run E j name) as [v [V R]]. exists v. rewrite R.
  destruct (has_bad (v_value v)) eqn:B; [apply has_bad_crashed in B; destruct (C65_views http V N B)|]. auto.
Qed.
Lemma directive_calm l key : existsb has_bad l = false -> (forall d, In d l -> exists n r, unpack2 d = Some (n, r)) -> has_bad (first_directive key l) = false.
Proof.
  induction l as [|d l IH]; cbn [first_directive existsb]; intros B U; [reflexivity|]. apply orb_false_iff in B. destruct B as [B1 B2].
  destruct (U d (or_introl eq_refl)) as [n [r Hu]]. rewrite Hu. destruct (ci_eq (text_of n) key); [|apply IH; auto; intros; apply U; now right].
  assert (has_bad r = false); [|destruct r; auto].
  destruct d as [| | | | | | |l'|l'|c l'| |]; try discriminate Hu; cbn [unpack2] in Hu.
  - destruct l' as [|y [|z [|]]]; try discriminate Hu. injection Hu as -> ->. cbn [has_bad existsb] in B1. apply orb_false_iff in B1. destruct B1 as [_ B1]. now apply orb_false_iff in B1.
  - destruct l' as [|y [|z [|]]]; try discriminate Hu. destruct (str_eqb c _); [|discriminate Hu]. injection Hu as -> ->. cbn [has_bad existsb] in B1. apply orb_false_iff in B1. destruct B1 as [_ B1]. now apply orb_false_iff in B1.
Qed.
Lemma header_path_ok w k path : kind_ok w k -> header_path path = true -> exists found, getattrs E x (NHeaders w) path = Some found.
Proof.
  intros K H. destruct (kind_subject K) as [j [J _]]. destruct path as [|a [|b [|]]]; try discriminate H; cbn [getattrs getattr header_path] in *.
  - unfold has_accessor in H. unfold headers_attr. destruct (accessor _ a) as [key|]; [|discriminate H]. eexists. reflexivity.
  - apply orb_true_iff in H. destruct H as [H|H]; apply andb_true_iff in H; destruct H as [H1 H2].
    + apply String.eqb_eq in H1. apply String.eqb_eq in H2. subst a b.
      assert (A : headers_attr w "cache_control" = Some (NView w (s "Cache-Control"))) by (vm_compute; reflexivity). rewrite A. cbn [getattr].
      destruct (value_there (name := s "Cache-Control") J) as [v [V [Vi B]]]; [intro S; apply same_name_lower in S; vm_compute in S; discriminate S|].
      unfold view_attr. rewrite V.
      assert (A1 : String.eqb "max_age" "value" = false) by reflexivity. rewrite A1.
      assert (A2 : ci_eq (s "Cache-Control") (s "Cache-Control") = true) by reflexivity. rewrite A2.
      assert (A3 : accessor (map ak_key cache_directive_table) "max_age" = Some (s "max-age")) by (vm_compute; reflexivity). rewrite A3.
      cbv zeta. assert (D : has_bad (directive v (s "max-age")) = false); [|rewrite D; eexists; reflexivity].
      unfold directive, iterate.
      assert (F : exists sh, In ("Cache-Control", sh) value_shapes /\ view_shape "Cache-Control" sh = shown_list (made_of CacheControlView)).
      { eexists. split; [unfold value_shapes; repeat first [left; reflexivity|right]|]. vm_compute. reflexivity. }
      destruct F as [sh [Is Sh]]. pose proof (view_fits http Is Vi) as F. rewrite Sh in F. clear Sh Is sh.
      destruct (v_value v) as [| | | | | | |l| | | |] eqn:VV; try reflexivity. apply directive_calm.
      * cbn [has_bad] in B. clear - B. induction l as [|y l IH]; [reflexivity|]. cbn [existsb filter] in *. apply orb_false_iff in B. destruct B as [B1 B2]. destruct (okay_value y); cbn [existsb]; [|auto].
        rewrite B1. cbn. auto.
      * intros d I. apply filter_In in I. destruct I as [I O]. unfold shown_list, made_of, P_Types.argument, parametrized_by in F. cbn [alternatives flat_map app filter fits map one_of fold_right] in F.
        destruct F as [[l' [L F]]|[]]. injection L as <-. rewrite Forall_forall in F. specialize (F d I). destruct F as [[u ->]|[F|[]]]; [discriminate O|].
        destruct F as [vs [-> F]]. cbn [P_Types.each] in F. destruct vs as [|n [|r [|]]]; try tauto. exists n, r. reflexivity.
    + apply String.eqb_eq in H1. subst b. unfold headers_attr. destruct (accessor _ a) as [key|]; [|discriminate H2]. cbn [option_map getattr].
      destruct (value_there (name := key) J) as [v [V _]]; [intro S; apply same_name_lower in S; unfold ci_eq in H2; rewrite S, str_eqb_refl in H2; discriminate H2|].
      unfold view_attr. rewrite V. eexists. reflexivity.
Qed.
Lemma message_path_ok path : forall w k, kind_ok w k -> message_path k path = true -> exists found, getattrs E x (NMessage w) path = Some found.
Proof.
  induction path as [|a r IH]; intros w k K H; [eexists; reflexivity|]. destruct (kind_subject K) as [j [J _]].
  cbn [message_path] in H. cbn [getattrs getattr]. unfold message_attr. rewrite J. cbn [existsb] in H.
  destruct (String.eqb_spec a "headers") as [->|N1].
  { destruct (String.eqb_spec "headers" "version") as [Q|_]; [discriminate Q|]. exact (header_path_ok K H). }
  destruct (String.eqb_spec a "version") as [->|N2]; [cbn [orb] in H; destruct r; [eexists; reflexivity|discriminate H]|].
  destruct (String.eqb_spec a "displayable_body") as [->|N3]; [cbn [orb] in H; destruct r; [eexists; reflexivity|discriminate H]|].
  destruct (String.eqb_spec a "guessed_charset") as [->|N4]; [cbn [orb] in H; destruct r; [eexists; reflexivity|discriminate H]|].
  cbn [orb] in *. destruct w as [|i], k as [|b]; cbn [kind_ok] in K; try tauto.
  - destruct K as [q Q]. rewrite Q. apply andb_true_iff in H. destruct H as [H1 H2]. destruct r; [|discriminate H2]. cbn [existsb orb] in H1. rewrite orb_false_r in H1. apply orb_true_iff in H1.
    destruct H1 as [H1|H1].
    + rewrite H1. eexists. reflexivity.
    + destruct (a =? "method")%string; [|rewrite H1]; eexists; reflexivity.
  - destruct K as [[p A] Q]. apply orb_true_iff in H. destruct H as [H|H].
    + apply andb_true_iff in H. destruct H as [H1 H2]. rewrite H1. destruct r; [|discriminate H2]. unfold subject_at in J. unfold response_at in A. rewrite A in J. injection J as <-. eexists. reflexivity.
    + apply andb_true_iff in H. destruct H as [H1 H2]. apply andb_true_iff in H1. destruct H1 as [H1 ->]. apply String.eqb_eq in H1. subst a.
      destruct (String.eqb_spec "request" "status") as [Z|_]; [discriminate Z|]. destruct (Q eq_refl) as [q Q']. rewrite Q', String.eqb_refl. eapply IH; [|exact H2]. exists q. exact Q'.
Qed.
Lemma can_follow_ok w k keys ctx ref : kind_ok w k -> can_follow k keys ref = true -> (forall key, In key keys -> In (s key) (map fst ctx)) ->
  exists found, resolve_reference E x w ctx ref = Some found.
Proof.
  intros K H C. destruct ref as [|a r]; [discriminate H|]. cbn [can_follow resolve_reference] in *. unfold context_get. destruct (String.eqb a "msg"); [exact (message_path_ok K H)|].
  apply andb_true_iff in H. destruct H as [H1 H2]. destruct r; [|discriminate H2]. apply existsb_exists in H1. destruct H1 as [key [I H1]]. apply String.eqb_eq in H1. subst key.
  specialize (C a I). destruct (find _ ctx) eqn:F; [eexists; reflexivity|]. exfalso. apply in_map_iff in C. destruct C as [kv [C1 C2]]. pose proof (find_none _ _ F _ C2) as Q. cbv beta in Q.
  rewrite C1, str_eqb_refl in Q. discriminate Q.
Qed.
Definition shown (e : event) : Prop := match e with Said w id ctx => part_of x w /\ can_be_shown E x w id ctx | Silenced _ _ => True end.
Lemma kind_part w k : kind_ok w k -> part_of x w.
Proof. destruct w, k; cbn [kind_ok part_of]; try tauto. Qed.
Lemma listed_allows w k t : kind_ok w k -> all_listed k t = true -> allows shown w t.
Proof.
  intros K H id ctx [keys [I C]]. cbn [fst snd shown] in *. split; [exact (kind_part K)|]. pose proof (proj1 (forallb_forall _ _) H _ I) as Q. apply existsb_exists in Q. destruct Q as [n [In' Q]]. cbn [fst snd] in Q.
  destruct (N.eqb_spec (c_id n) id) as [Q1|]; [|discriminate Q]. apply andb_true_iff in Q. destruct Q as [Q2 Q3].
  exists n. split; [exact In'|]. split; [exact Q1|]. split.
  - intros ref R. eapply can_follow_ok; [exact K|exact (proj1 (forallb_forall _ _) Q2 ref R)|exact C].
  - intro X. rewrite X in Q3. cbn [negb orb] in Q3. apply existsb_exists in Q3. destruct Q3 as [key [Ik Q3]]. apply String.eqb_eq in Q3. subst key.
    specialize (C _ Ik). apply in_map_iff in C. destruct C as [[k' e] [C1 C2]]. cbn [fst] in C1. subst k'. eauto.
Qed.
End Shown.

(** *** Requests *)
Lemma headers_listed k : all_listed k header_notices = true.
Proof. destruct k as [|[|]]; vm_compute; reflexivity. Qed.
Lemma listed_hears E x w k t : parses_http (e_read E) -> kind_ok x w k -> all_listed k t = true -> forall g, hears E (shown E x) w g t.
Proof. intros http K H g. apply hears_all; [exact http| |]; eapply listed_allows; eauto using headers_listed. Qed.
Lemma header_item E x q name ctx : parses_http (e_read E) -> x_request x = Some q -> (name = "Authorization" \/ name = "Proxy-Authorization") ->
  find (fun kv => str_eqb (fst kv) (s "header")) ctx = Some (s "header", CHeader Req (s name)) ->
  forall v, snd (view (of_request q) (s name) E) = Ok v -> okay_value (v_value v) = true ->
  exists found, resolve_reference E x Req ctx ["header"; "value"; "item"] = Some found.
Proof.
  intros http Q N C v V O. unfold resolve_reference, context_get. rewrite C. change (String.eqb "header" "msg") with false. cbn [option_map node_of snd getattrs getattr].
  assert (A : view_attr E x Req (s name) "value" = Some (NValue (v_value v))).
  { unfold view_attr, view_value, subject_at. rewrite Q. cbn [option_map]. rewrite V. reflexivity. }
  rewrite A. cbn [getattr].
  assert (F : fits (shown_one credentials) (v_value v)).
  { apply view_got in V. destruct N as [->| ->]; (eapply view_fits in V; [exact V|exact http|unfold value_shapes; repeat first [left; reflexivity|right]]). }
  unfold shown_one, credentials, parametrized_by in F. cbn [fits map one_of fold_right] in F. destruct F as [[vs [F1 F2]]|[[u F]|[F|[]]]]; try (rewrite F in O; discriminate O).
  rewrite F1. cbn [P_Types.each] in F2. destruct vs as [|n [|r [|]]]; try tauto. eexists. reflexivity.
Qed.
Lemma say_listed E x w k id ctx : parses_http (e_read E) -> kind_ok x w k -> listed k (id, []) = true -> shown E x (Said w id ctx).
Proof. intros http K H. eapply (listed_allows http (t := [(id, [])]) K); [unfold all_listed; cbn [forallb]; now rewrite H|]. exists []. split; [now left|]. intros ? []. Qed.
Lemma entry_1274 : find (fun n => N.eqb (c_id n) 1274) catalogue = Some (Notice 1274 Error [["header"]; ["header"; "value"; "item"]] false).
Proof. vm_compute. reflexivity. Qed.
Lemma authorization_shown E x q : parses_http (e_read E) -> x_request x = Some q -> emits E (shown E x) (check_authorization q).
Proof.
  intros http Q. assert (K : kind_ok x Req IsRequest) by (exists q; exact Q).
  assert (V : forall name, emits E (shown E x) (view (of_request q) name)) by (intro; eapply view_says with (t := []); [apply (listed_hears http K); reflexivity]).
  unfold check_authorization. apply emits_each. intros name I. apply emits_when; [apply emits_bind; [apply V|intros; apply emits_ret]|]. intro O.
  apply emits_bind; [apply emits_bind; [apply V|intros; apply emits_ret]|]. intros w Hw. apply emits_bind; [apply emits_some|]. intros p _.
  destruct (veq _ _); [apply check_basic_auth_says; apply (listed_hears http K); vm_compute; reflexivity|].
  destruct (veq _ _); [apply check_bearer_auth_says; apply (listed_hears http K); vm_compute; reflexivity|].
  apply emits_when; [apply emits_pure|]. intros _. apply emits_complain. split; [exists q; exact Q|].
  exists (Notice 1274 Error [["header"]; ["header"; "value"; "item"]] false). split; [exact (proj1 (find_some _ _ entry_1274))|]. split; [reflexivity|].
  split; [|discriminate]. intros ref [<-|[<-|[]]]; [eexists; reflexivity|].
  unfold okayM in O. apply bind_done in O. destruct O as [v [Hv O]]. injection O as O.
  eapply header_item; [exact http|exact Q| |reflexivity|exact Hv|exact O]. cbn [In] in I. destruct I as [<-|[<-|[]]]; auto.
Qed.
Lemma check_request_shown E x q : parses_http (e_read E) -> x_request x = Some q -> emits E (shown E x) (check_request q).
Proof.
  intros http Q. assert (K : kind_ok x Req IsRequest) by (exists q; exact Q).
  unfold check_request. change (request_checks q) with (silence_own q :: tl (request_checks q)). apply emits_seq. intros m [<-|I].
  - apply silencing_says with (t := []); [apply (listed_hears http K); reflexivity|intros; exact Logic.I].
  - pose proof (request_follows http q) as F.
    assert (G : Forall2 (fun t m => all_listed IsRequest t = true \/ emits E (shown E x) m) request_tables (tl (request_checks q))).
    { unfold request_tables, request_checks. match goal with |- Forall2 _ _ (tl ([?a] ++ ?l)) => change (tl ([a] ++ l)) with l end.
      unfold message_checks. assert (S : is_early (of_request q) = false) by reflexivity. rewrite S. unfold message_tables. cbn [app].
      repeat (first [apply Forall2_nil|apply Forall2_cons; [lazymatch goal with
        | |- _ \/ emits _ _ (check_authorization _) => right; now apply authorization_shown
        | _ => left; vm_compute; reflexivity end|]]). }
    clear - http F G I K. induction F as [|t m' ts ms A F IH]; [destruct I|]. inversion G as [ | ? ? ? ? G1 G2]; subst. destruct I as [<-|I]; [|exact (IH I G2)].
    destruct G1 as [G1|G1]; [|exact G1]. apply A. now apply (listed_hears http K).
Qed.

(** *** Responses *)
Definition t_bearer_alone : table := [(1265%N, ["param"]); (1268%N, ["error_code"; "expected_status"]); (1269%N, ["param"]); (1266%N, ["error"; "param"; "value"])].
Lemma bearer_alone_says E P n p params token : parses_http (e_read E) -> hears E P (Resp n) (p_msg p) t_bearer_alone -> emits E P (check_bearer_params n p None params token).
Proof.
  intros http H. unfold check_bearer_params.
  repeat lazymatch goal with
  | |- emits _ _ (when (_ &? ret false) (say _ 1267 _)) => apply emits_when; [apply emits_and; [apply emits_pure|intros; apply emits_ret]|let Q := fresh in intro Q; exfalso; apply bind_done in Q; destruct Q as [[|] [_ Q]]; discriminate Q]
  | |- emits _ _ (parse_text _ _ _ _ _) => apply parse_text_says; [exact http|match goal with I : In _ error_symbols |- _ => exact (proj1 (forallb_forall _ _) error_silent _ I) end|eapply hears_say; [exact H|vm_compute; reflexivity]]
  | _ => emit_step ltac:(eapply hears_say; [exact H|vm_compute; reflexivity])
  end.
Qed.
Lemma challenges_alone E x n p : parses_http (e_read E) -> response_at x n p -> emits E (shown E x) (check_challenges n p None).
Proof.
  intros http A. assert (K : kind_ok x (Resp n) (IsResponse false)) by (split; [exists p; exact A|discriminate]).
  unfold check_challenges. apply emits_each. intros name _. apply emits_bind; [apply items_says with (t := []); [apply (listed_hears http K); reflexivity]|]. intros l _.
  apply emits_each. intros c _. apply emits_bind; [apply emits_some|]. intros i _. apply emits_bind; [apply emits_some|]. intros ps _. apply emits_bind.
  - destruct (veq _ _); [|apply emits_ret]. apply check_basic_challenge_says; [apply (listed_hears http K); vm_compute; reflexivity|discriminate].
  - intros _ _. destruct (_ && _); [|apply emits_ret]. unfold check_bearer_challenge. apply emits_bind; [apply emits_ret|]. intros token _.
    destruct (_ || _); [apply emits_complain; eapply (say_listed (k := IsResponse false)); [exact http|exact K|vm_compute; reflexivity]|].
    apply bearer_alone_says; [exact http|apply (listed_hears http K); vm_compute; reflexivity].
Qed.
Definition good (k : bool) (E : env) (x : exchange) (t : table * table) (m : M unit) : Prop :=
  (all_listed (IsResponse k) (fst t) = true /\ all_listed IsRequest (snd t) = true) \/ emits E (shown E x) m.
Lemma good_all k E x n p ts ms : parses_http (e_read E) -> kind_ok x (Resp n) (IsResponse k) ->
  Forall2 (follows2 E n p (x_request x)) ts ms -> Forall2 (good k E x) ts ms -> forall m, In m ms -> emits E (shown E x) m.
Proof.
  intros http K F. induction F as [|t m ts ms A F IH]; intros G m' I; [destruct I|]. inversion G as [ | ? ? ? ? G1 G2]; subst. destruct I as [<-|I]; [|exact (IH G2 m' I)].
  destruct G1 as [[G1 G3]|G1]; [|exact G1]. apply A; [now apply (listed_hears http K)|]. intros q Q. apply (listed_hears (k := IsRequest) http); [exists q; exact Q|exact G3].
Qed.
Definition both_listed (k : bool) (t : table * table) : bool := all_listed (IsResponse k) (fst t) && all_listed IsRequest (snd t).
Lemma with_request_listed : forallb (fun e => forallb (both_listed true) (response_tables e ++ context_tables e)) [true; false] = true.
Proof. vm_compute. reflexivity. Qed.
Lemma with_request p : forallb (both_listed true) (tables_of p) = true.
Proof. apply (proj1 (forallb_forall _ _) with_request_listed). destruct (p_status p =? 103)%Z; cbn [In]; auto. Qed.
Lemma forall2_length {A B} (R : A -> B -> Prop) l l' : Forall2 R l l' -> List.length l = List.length l'.
Proof. induction 1; cbn [List.length]; auto. Qed.
Lemma good_listed k E x ts ms : forallb (both_listed k) ts = true -> List.length ts = List.length ms -> Forall2 (good k E x) ts ms.
Proof.
  revert ms. induction ts as [|t ts IH]; intros [|m ms] H L; try discriminate L; constructor; cbn [forallb] in H; apply andb_true_iff in H; destruct H as [H1 H2].
  - left. apply andb_true_iff. exact H1.
  - apply IH; [exact H2|now injection L].
Qed.
Lemma check_response_shown E x n p : parses_http (e_read E) -> response_at x n p -> emits E (shown E x) (check_response n p (x_request x)).
Proof.
  intros http A. unfold check_response, check_response_itself.
  assert (K0 : kind_ok x (Resp n) (IsResponse false)) by (split; [exists p; exact A|discriminate]).
  apply emits_bind.
  - change (response_checks n p (x_request x)) with (silence_itself n p (x_request x) :: tl (response_checks n p (x_request x))). apply emits_seq. intros m [<-|J].
    + apply silencing_says with (t := []); [apply (listed_hears http K0); reflexivity|intros; exact Logic.I].
    + pose proof (response_follows http n p (x_request x)) as F. revert m J. destruct (x_request x) as [q|] eqn:R; intros m J; rewrite <- R in F.
      * assert (K : kind_ok x (Resp n) (IsResponse true)) by (split; [exists p; exact A|exists q; exact R]). rewrite <- R in J.
        refine (good_all http K F _ J). apply good_listed; [|exact (forall2_length F)].
        pose proof (with_request p) as W. unfold tables_of in W. rewrite forallb_app in W. apply andb_true_iff in W. exact (proj1 W).
      * rewrite <- R in J. refine (good_all http K0 F _ J). clear F J m. rewrite R.
        unfold response_tables, response_checks. match goal with |- Forall2 _ _ (tl ([?a] ++ ?l)) => change (tl ([a] ++ l)) with l end.
        unfold message_checks. assert (S : is_early (of_response n p None) = (p_status p =? 103)%Z) by reflexivity. rewrite S.
        assert (S' : early p = (p_status p =? 103)%Z) by (unfold early, status_in; cbn [existsb]; apply orb_false_r). rewrite S'. clear S S'.
        unfold message_tables. destruct (p_status p =? 103)%Z; rewrite ?app_nil_r; cbn [map app];
        repeat (first [apply Forall2_nil|apply Forall2_cons; [lazymatch goal with
        | |- good _ _ _ _ (check_challenges _ _ _) => right; now apply challenges_alone
        | _ => left; split; vm_compute; reflexivity end|]]).
  - intros _ _. destruct (x_request x) as [q|] eqn:R; [|apply emits_ret]. unfold check_response_in_context.
    assert (K : kind_ok x (Resp n) (IsResponse true)) by (split; [exists p; exact A|exists q; exact R]).
    change (context_checks n p (Some q) q) with (silence_from_request n p (Some q) q :: tl (context_checks n p (Some q) q)). apply emits_seq. intros m [<-|J].
    + apply silencing_says with (t := []); [apply (listed_hears (k := IsRequest) http); [exists q; exact R|reflexivity]|intros; exact Logic.I].
    + pose proof (context_follows http n p (eq_refl : Some q = Some q)) as F. rewrite <- R in F at 1.
      refine (good_all http K F _ J). apply good_listed; [|exact (forall2_length F)].
      pose proof (with_request p) as W. unfold tables_of in W. rewrite forallb_app in W. apply andb_true_iff in W. exact (proj2 W).
Qed.

(** *** Exchanges *)
Lemma entry_1304 : find (fun n => N.eqb (c_id n) 1304) catalogue = Some (Notice 1304 Error [["msg"; "status"]; ["previous"; "status"]] false).
Proof. vm_compute. reflexivity. Qed.
Lemma from_shown E x l : parses_http (e_read E) -> forall n final, (forall k p, nth_error l k = Some p -> response_at x (n + k) p) -> (forall f, final = Some f -> exists p, response_at x f p) ->
  emits E (shown E x) (check_responses_from (x_request x) n final l).
Proof.
  intros http. induction l as [|p l IH]; intros n final A F; cbn [check_responses_from]; [apply emits_ret|].
  assert (A0 : response_at x n p) by (specialize (A 0 p eq_refl); now rewrite Nat.add_0_r in A).
  apply emits_bind; [|intros _ _; apply emits_bind; [now apply check_response_shown|intros _ _]].
  - destruct final as [f|]; [|apply emits_ret]. apply emits_complain. split; [exists p; exact A0|].
    exists (Notice 1304 Error [["msg"; "status"]; ["previous"; "status"]] false). split; [exact (proj1 (find_some _ _ entry_1304))|]. split; [reflexivity|]. split; [|discriminate].
    intros ref [<-|[<-|[]]].
    { unfold resolve_reference, context_get. rewrite String.eqb_refl. cbn [getattrs getattr]. unfold message_attr, subject_at. unfold response_at in A0. rewrite A0. eexists. reflexivity. }
    destruct (F f eq_refl) as [p' A']. unfold resolve_reference, context_get. change (String.eqb "previous" "msg") with false.
    assert (C : find (fun kv : str * carg => str_eqb (fst kv) (s "previous")) [(s "previous", CResponse f)] = Some (s "previous", CResponse f)) by reflexivity. rewrite C.
    cbn [option_map node_of snd getattrs getattr]. unfold message_attr, subject_at. unfold response_at in A'. rewrite A'. eexists. reflexivity.
  - apply IH.
    + intros k p' H. rewrite Nat.add_succ_comm. now apply A.
    + intros f H. destruct final as [f'|]; [apply F; congruence|]. destruct (informational (p_status p)); [discriminate H|]. exists p. congruence.
Qed.
Lemma continue_shown E x q l : parses_http (e_read E) -> x_request x = Some q -> forall expect n, (forall k p, nth_error l k = Some p -> response_at x (n + k) p) ->
  emits E (shown E x) (check_continue expect n l).
Proof.
  intros http Q. induction l as [|p l IH]; intros expect n A; cbn [check_continue]; [apply emits_ret|].
  assert (A0 : response_at x n p) by (specialize (A 0 p eq_refl); now rewrite Nat.add_0_r in A).
  apply emits_bind; [|intros _ _; apply IH; intros k p' H; rewrite Nat.add_succ_comm; now apply A].
  destruct (_ && _); [|apply emits_ret]. apply emits_complain. eapply (say_listed (k := IsResponse true)); [exact http| |vm_compute; reflexivity]. split; [exists p; exact A0|exists q; exact Q].
Qed.
Lemma continue_silent E l n : fst (check_continue false n l E) = [].
Proof. revert n. induction l as [|p l IH]; intro n; cbn [check_continue andb]; [reflexivity|]. unfold bind, ret. specialize (IH (S n)). destruct (check_continue false (S n) l E). cbn [fst app] in *. exact IH. Qed.

(** C54.  Whatever is reported by checking an exchange is reported on a message of
    that exchange, is in the catalogue, and can be shown with all that its text
    refers to. *)
Theorem C54_shown : forall E x w id ctx, parses_http (e_read E) -> said E x w id ctx -> part_of x w /\ can_be_shown E x w id ctx.
Proof.
  intros E x w id ctx http H. assert (F : emits E (shown E x) (check_exchange x)).
  { unfold check_exchange. apply emits_bind; [|intros b B; apply emits_bind; [|intros _ _]].
    - destruct (x_request x) as [q|] eqn:Q; [|apply emits_ret]. apply emits_bind; [now apply check_request_shown|intros _ _].
      apply emits_bind; [|intros; apply emits_ret]. eapply view_says with (t := []); [apply (listed_hears (k := IsRequest) http); [exists q; exact Q|reflexivity]].
    - apply from_shown; [exact http|intros k p A; exact A|discriminate].
    - destruct (x_request x) as [q|] eqn:Q; [apply (continue_shown (q := q)); auto|]. injection B as <-. unfold emits. rewrite continue_silent. constructor. }
  unfold emits in F. rewrite Forall_forall in F. exact (F _ H).
Qed.
Print Assumptions C54_shown.

(** C54.  The ids of the catalogue are distinct, so that an id names one notice. *)
Theorem C54_unique : forall n n', In n catalogue -> In n' catalogue -> c_id n = c_id n' -> n = n'.
Proof.
  assert (D : NoDup (map c_id catalogue)).
  { assert (H : (fix go l := match l with [] => true | x :: l' => negb (existsb (N.eqb x) l') && go l' end) (map c_id catalogue) = true) by (vm_compute; reflexivity).
    revert H. induction (map c_id catalogue) as [|y l IH]; intro H; constructor; apply andb_true_iff in H; destruct H as [H1 H2]; [|exact (IH H2)].
    intro I. apply negb_true_iff in H1. rewrite <- not_true_iff_false in H1. apply H1, existsb_exists. exists y. split; [exact I|apply N.eqb_refl]. }
  intros n n' I I' Q. exact (nodup_map D I I' Q).
Qed.
Print Assumptions C54_unique.

(** Notices on a request and responses whose texts refer to the context, the
    message, the request of a response and the views of headers. *)
Example C54_example : parses_http (e_read example_env) /\
  said example_env waiting_exchange (Resp 0) 1305 [] /\
  resolve_reference example_env waiting_exchange (Resp 0) [] ["msg"; "request"; "headers"; "expect"] = Some (NView Req (s "Expect")) /\
  said example_env waiting_exchange (Resp 2) 1304 [(s "previous", CResponse 1)] /\
  resolve_reference example_env waiting_exchange (Resp 2) [(s "previous", CResponse 1)] ["previous"; "status"] = Some (NValue (VInt 204)).
Proof.
  destruct C32_example as [H [_ [_ [S1 [_ S2]]]]]. split; [exact H|]. split; [exact S2|]. split; [vm_compute; reflexivity|]. split; [exact S1|vm_compute; reflexivity].
Qed.
