(** Which exceptions the checks of a response can raise. *)
From Coq Require Import ZifyBool ZifyNat ZifyN String.
From Verif Require Import Base Earley Grammar Syntax Actions Reading Nested NestedTypes Types P_Types Text Structure Known Tables Header HeaderProofs P_Header P_Views Values
  ViewFacts ChecksBase ChecksLogic ChecksViews ChecksFacts ChecksSafe ChecksMessage ChecksRequest ChecksResponse SafeMessage SafeRequest.
Open Scope nat_scope.
Open Scope list_scope.
Unset Strict Implicit.
Local Open Scope string_scope.
Local Open Scope list_scope.

Section Response.
Variable E : env.
Variable allowed : exn -> Prop.
Hypothesis http : parses_http (e_read E).
Variable known : msg -> Prop.
Hypothesis link_raises : forall m, known m -> crashed (v_value (got_view (e_read E) (m_entries m) (s "Link"))) -> allowed FromLink.
Hypothesis proper_known : forall m, known m -> proper m.
Hypothesis library : library_raises E -> allowed FromLibrary.
Notation safe := (safe E allowed).
Notation calm := (calm E allowed).
Ltac by_message l := eapply l; eassumption.

Variable n : nat.
Variable p : response.
Variable req : option request.
Hypothesis Kj : known (j_msg (of_response n p req)).
Hypothesis Kq : forall q, req = Some q -> known (j_msg (of_request q)).
Notation j := (of_response n p req).
Notation gv := (gv E j).
Hypothesis date_raises : forall d a, p_status p <> 103%Z -> time_like (gv "Date") = Some d -> gv "Age" = VInt a -> (last_moment < d + a * micro)%Z -> allowed FromDate.
Hypothesis relation_raises : forall l uri ps c k y, p_status p = 451%Z -> gv "Link" = VList l -> In (VObj (s "Parametrized") [uri; VObj (s "MultiDict") [VList ps]]) l ->
  In (VTuple [VObj c [VStr k]; VUnavailable y]) ps -> map lower_c k = s "rel" -> allowed FromRelation.

Lemma cc_ok key : calm (cc n p req key).
Proof. eapply safe_calm. unfold cc. by_message directive_ok. Qed.
Lemma cc_true_ok key : calm (cc_true n p req key).
Proof. unfold cc_true. eapply safe_bind; [exact (cc_ok key)|]. intros. apply calm_ret. Qed.
Lemma cc_none_ok key : calm (cc_none n p req key).
Proof. unfold cc_none. eapply safe_bind; [exact (cc_ok key)|]. intros. apply calm_ret. Qed.
Lemma cc_bare_ok key : calm (cc_bare n p req key).
Proof. unfold cc_bare. eapply safe_bind; [exact (cc_ok key)|]. intros. apply calm_ret. Qed.
Lemma calm_or a b : calm a -> calm b -> calm (a |? b).
Proof. intros A B. eapply safe_calm, safe_or; [exact A|]. intros _. exact B. Qed.
Lemma calm_not a : calm a -> calm (notM a).
Proof. intro A. eapply safe_calm, safe_not. exact A. Qed.
Lemma calm_when c a : calm c -> calm a -> calm (when c a).
Proof. intros C A. eapply safe_when; [exact C|]. intros _. exact A. Qed.
Lemma calm_if {A} c (a b : M A) : calm c -> calm a -> calm b -> calm (ifM c a b).
Proof. intros C H K. eapply safe_if; [exact C| |]; intros _; assumption. Qed.
Lemma calm_then {B A} (m : M B) (k : M A) : calm m -> calm k -> calm (m ;;; k).
Proof. intros H K. eapply safe_bind; [exact H|]. intros _ _. exact K. Qed.
Lemma yes_ok m : calm m -> calm (yesM m).
Proof. intro H. unfold yesM. eapply safe_bind; [exact H|]. intros. apply calm_ret. Qed.

(** Headers that are times or numbers. *)
Definition timed (key : string) : Prop := shape_of (s key) = Some moment /\ class_of (s key) = Some SingleView.
Lemma time_of j' key : timed key -> okay_value (ChecksSafe.gv E j' key) = true -> exists z, time_like (ChecksSafe.gv E j' key) = Some z.
Proof. intros [S C] O. exact (moment_time (@fit_one E http j' key _ S C O) O). Qed.
Lemma timed_keys : timed "Date" /\ timed "Expires" /\ timed "Last-Modified" /\ timed "If-Modified-Since".
Proof. repeat split; vm_compute; reflexivity. Qed.
Lemma age_is j' : okay_value (ChecksSafe.gv E j' "Age") = true -> exists z, ChecksSafe.gv E j' "Age" = VInt z.
Proof. intro O. destruct (@fit_one E http j' "Age" _ eq_refl eq_refl O) as [z [-> _]]. eauto. Qed.
Lemma compare_times test j1 j2 k1 k2 : known (j_msg j1) -> timed k1 -> timed k2 -> calm (compare test j1 k1 (ChecksSafe.gv E j2 k2)).
Proof.
  intros K1 T1 T2. eapply safe_calm, safe_compare; try eassumption. intros O1 O2. destruct (time_of T1 O1) as [x X]. destruct (time_of T2 O2) as [y Y]. exact (order_times X Y).
Qed.
Lemma compare_age test j1 v : known (j_msg j1) -> (okay_value v = true -> exists z, number_like v = Some z) -> calm (compare test j1 "Age" v).
Proof.
  intros K1 H. eapply safe_calm, safe_compare; try eassumption. intros O1 O2. destruct (age_is O1) as [x ->]. destruct (H O2) as [y Y]. exact (@order_numbers (VInt x) v _ y eq_refl Y).
Qed.
(** [max-age] is a number. *)
Lemma max_age_ok j' : known (j_msg j') -> safe (directive_of j' "Cache-Control" "max-age") (fun v => okay_value v = true -> exists z, number_like v = Some z).
Proof.
  intro K. eapply safe_impl; [|eapply directive_ok; eassumption]. intros v [->|[->|[l [nm [G [V Q]]]]]]; [discriminate|eexists; reflexivity|]. intro O.
  destruct (cache_items http G V) as [[y Y]|[nm' [r [Y H]]]]; [discriminate Y|]. injection Y as -> ->.
  assert (L : lower nm' = s "max-age"). { cbn [text_of] in Q. apply str_eqb_eq in Q. rewrite Q. reflexivity. }
  destruct (H L) as [[u ->]|[[z [-> _]]|[]]]; [discriminate O|]. eexists. reflexivity.
Qed.

Lemma from_cache_date_ok : p_status p <> 103%Z -> calm (from_cache_date n p req).
Proof.
  intro St. unfold from_cache_date. eapply safe_if; [eapply safe_and; [leaf|intros _; leaf]| |intros; apply calm_ret]. intros [O1 O2]. apply eq_sym in O1, O2.
  destruct (time_of (proj1 timed_keys) O1) as [d D]. destruct (age_is O2) as [a A].
  eapply safe_bind; [leaf|]. intros v ->. rewrite D. eapply safe_bind; [apply safe_some with (P := fun x => x = d) (x := d); reflexivity|]. intros d' ->.
  eapply safe_bind; [leaf|]. intros v ->. rewrite A. eapply safe_bind; [apply safe_some with (P := fun x => x = a) (x := a); reflexivity|]. intros a' ->.
  eapply safe_bind; [apply safe_ask|]. intros now _. match goal with |- ChecksSafe.safe _ _ (if ?b then _ else _) _ => destruct b eqn:B end.
  - apply Z.ltb_lt in B. exact (date_raises St D A B).
  - clear B. match goal with |- ChecksSafe.safe _ _ (if ?b then _ else _) _ => destruct b end; [apply calm_then; [apply calm_say|apply calm_ret]|apply calm_ret].
Qed.
(** Items of Warning. *)
Lemma warnings_of j' : known (j_msg j') -> safe (items j' "Warning") (Forall (fun w => exists x z l, w = VObj (s "WarningValue") (VObj (s "WarnCode") [VStr x] :: l) /\ int_of x = VInt z)).
Proof.
  intro K. eapply safe_impl; [|leaf]. intros l [F [l0 [G ->]]]. apply Forall_forall. intros w W. rewrite Forall_forall in F. destruct (F w W) as [_ O]. apply filter_In in W. destruct W as [W _].
  destruct (warning_items http G W) as [[y ->]|[x [r [z [-> X]]]]]; [discriminate O|]. eauto 6.
Qed.
Lemma code_between_ok lo hi x z : int_of x = VInt z -> calm (code_between lo hi (VObj (s "WarnCode") [VStr x])).
Proof.
  intro X. unfold code_between. eapply safe_bind with (P := fun _ => True); [|intros; apply calm_ret]. cbn [number_like]. change (str_eqb (s "WarnCode") (s "WarnCode")) with true. cbv iota. rewrite X. exact I.
Qed.
Lemma code_of x l : safe (field "code" (VObj (s "WarningValue") (x :: l))) (fun v => v = x).
Proof. reflexivity. Qed.
Lemma first_warning_ok l : Forall (fun w => exists x z l, w = VObj (s "WarningValue") (VObj (s "WarnCode") [VStr x] :: l) /\ int_of x = VInt z) l -> calm (first_cache_warning n p req l).
Proof.
  induction 1 as [|w l [x [z [r [-> X]]]] F IH]; [exact I|]. cbn [first_cache_warning]. eapply safe_bind; [apply code_of|]. intros v ->.
  apply calm_if; [exact (code_between_ok _ _ X)|apply calm_then; [apply calm_say|apply calm_ret]|exact IH].
Qed.
Lemma from_cache_ok : calm (from_cache n p req).
Proof.
  unfold from_cache. destruct (status_in p [103%Z]) eqn:S; [exact I|]. apply calm_if; [|apply calm_ret|apply calm_if].
  - apply from_cache_date_ok. intro Q. unfold status_in in S. cbn [existsb] in S. rewrite Q in S. discriminate S.
  - eapply safe_calm. leaf.
  - apply calm_then; [apply calm_say|apply calm_ret].
  - eapply safe_bind; [exact (warnings_of Kj)|]. intros l F. exact (first_warning_ok F).
Qed.
Lemma heuristic_ok : calm (heuristic_expiration n p req).
Proof.
  unfold heuristic_expiration. eapply safe_bind; [exact from_cache_ok|]. intros c _. destruct (says_yes c); [|exact I]. apply calm_if; [eapply safe_calm; leaf|apply calm_then; [apply calm_say|apply calm_ret]|].
  apply calm_if; [eapply safe_calm; leaf|apply calm_ret|]. apply calm_if; [exact (cc_true_ok _)|apply calm_ret|]. go.
Qed.
Lemma stale_by_warning_ok code rest : calm rest -> calm (stale_by_warning n p req code rest).
Proof. intro H. unfold stale_by_warning. apply calm_if; [eapply safe_calm; leaf|apply calm_then; [apply calm_say|apply calm_ret]|exact H]. Qed.
Lemma lifetime_ok : okay_value (gv "Expires") = true -> okay_value (gv "Date") = true -> safe (lifetime n p req) (fun v => exists z, number_like v = Some z).
Proof.
  intros O1 O2. unfold lifetime. destruct (time_of (proj1 (proj2 timed_keys)) O1) as [x X]. destruct (time_of (proj1 timed_keys) O2) as [y Y].
  eapply safe_bind; [leaf|]. intros v ->. eapply safe_bind; [leaf|]. intros v ->. rewrite X, Y. unfold ChecksSafe.safe. cbn. eauto.
Qed.
Lemma stale_ok : calm (stale n p req).
Proof.
  unfold stale. destruct (status_in p [103%Z]); [exact I|]. apply stale_by_warning_ok, stale_by_warning_ok. apply calm_if; [exact (cc_none_ok _)| |apply calm_ret]. apply calm_if.
  - eapply safe_bind; [exact (max_age_ok Kj)|]. intros v V. exact (compare_age is_gt Kj V).
  - apply calm_then; [apply calm_say|apply calm_ret].
  - apply calm_if; [|apply calm_then; [apply calm_say|apply calm_ret]|apply calm_ret]. eapply safe_calm, safe_and with (Q := fun _ => True); [exact (cc_none_ok _)|]. intros _.
    eapply safe_calm, safe_and with (Q := fun _ => True); [leaf|]. intro O1. eapply safe_calm, safe_and with (Q := fun _ => True); [leaf|]. intro O2.
    eapply safe_bind; [exact (lifetime_ok (eq_sym O1) (eq_sym O2))|]. intros v V. apply compare_age; [exact Kj|auto].
Qed.
Lemma delimited_ok : calm (delimited_by_close n p req).
Proof. unfold delimited_by_close. go. Qed.

(** ** The response itself *)

Lemma silence_itself_ok : calm (silence_itself n p req).
Proof. unfold silence_itself. eapply safe_bind; [leaf|]. intros l [F _]. eapply safe_bind; [exact (silence_ids_ok _ _ _ F)|]. intros. apply calm_silence. Qed.
Lemma reason_ok : calm (check_reason n p req). Proof. unfold check_reason. go. Qed.
Lemma status_range_ok : calm (check_status_range n p req). Proof. unfold check_status_range. go. Qed.
Lemma close_option_ok : calm (check_close_option n p req).
Proof. unfold check_close_option. apply calm_when; [|apply calm_say]. apply calm_and; [exact (yes_ok delimited_ok)|]. apply calm_and; [exact I|]. apply calm_not. eapply safe_calm. leaf. Qed.
Lemma response_headers_ok : calm (check_response_headers n p req). Proof. unfold check_response_headers. go. Qed.
Lemma switching_ok : calm (check_switching n p req). Proof. unfold check_switching. go. Qed.
Lemma no_content_body_ok : calm (check_no_content_body n p req). Proof. unfold check_no_content_body. go. Qed.
Lemma reset_content_body_ok : calm (check_reset_content_body n p req). Proof. unfold check_reset_content_body. go. Qed.
Lemma location_missing_ok : calm (check_location_missing n p req). Proof. unfold check_location_missing. go. Qed.
Lemma odd_status_ok : calm (check_odd_status n p req). Proof. unfold check_odd_status. go. Qed.
Lemma allow_missing_ok : calm (check_allow_missing n p req). Proof. unfold check_allow_missing. go. Qed.
Lemma timeout_close_ok : calm (check_timeout_close n p req). Proof. unfold check_timeout_close. go. Qed.
Lemma date_missing_ok : calm (check_date_missing n p req). Proof. unfold check_date_missing. go. Qed.
Lemma result_calm {A} (r : result A) : (r = Raises -> library_raises E) -> calm (result_of r).
Proof. intro H. destruct r; [exact I|exact (library (H eq_refl))]. Qed.
Lemma created_fragment_ok : calm (check_created_fragment n p req).
Proof.
  unfold check_created_fragment. apply calm_when; [|apply calm_say]. apply calm_and; [exact I|]. apply calm_and; [eapply safe_calm; leaf|]. eapply safe_bind; [leaf|]. intros v _.
  eapply safe_bind; [apply safe_ask|]. intros url ->. eapply safe_bind; [apply result_calm, lr_url|]. intros. apply calm_ret.
Qed.
Lemma last_modified_ok : calm (check_last_modified n p req).
Proof.
  unfold check_last_modified. apply calm_when; [|apply calm_say]. eapply safe_bind; [leaf|]. intros v ->. destruct timed_keys as [T1 [_ [T2 _]]]. exact (compare_times is_lt _ Kj T1 T2).
Qed.
Lemma headers_304_ok : calm (check_304_headers n p req). Proof. unfold check_304_headers. go. Qed.
Lemma byteranges_ok : calm (check_byteranges n p req).
Proof. unfold check_byteranges. eapply safe_bind; [by_message multipart_ok|]. intros [l|] _; [|exact I]. go. Qed.
Lemma partial_content_ok : calm (check_partial_content n p req).
Proof.
  unfold check_partial_content. destruct (status_in p _); [|exact I]. apply calm_if; [eapply safe_calm; leaf| |go]. apply calm_then; [exact byteranges_ok|go].
Qed.
Lemma response_directives_ok : calm (check_response_directives n p req).
Proof.
  unfold check_response_directives. eapply safe_bind; [leaf|]. intros l [F _]. apply calm_each. intros v V. rewrite Forall_forall in F. destruct (F v V) as [X _].
  apply fits_make2 in X. destruct X as [x [y [-> _]]]. eapply safe_bind; [apply f_item|]. intros i ->. go.
Qed.
Lemma pragma_no_cache_ok : calm (check_pragma_no_cache n p req). Proof. unfold check_pragma_no_cache. go. Qed.

(** Keys of dictionaries. *)
Lemma key_is c k t : veq (VObj c [VStr k]) (VStr t) = true -> forallb (fun c => (c <? 128)%N) t = true -> map lower_c t = t -> map lower_c k = t.
Proof.
  intros V A L. cbn [veq] in V. change (peel (VStr t)) with (VStr t) in V. cbn [items_of] in V.
  assert (Q : scalar_eq (VObj c [VStr k]) (VStr t) = true -> map lower_c k = t).
  { unfold scalar_eq. cbn [str_like]. destruct (mem_class c ci_classes); [|destruct (mem_class c plain_classes)]; cbn [py_eq]; intro H.
    - apply str_eqb_eq in H. change (lower k = lower t) in H. rewrite (proj1 (@lower_ascii t t A) L) in H. now apply lower_ascii.
    - apply str_eqb_eq in H. now subst.
    - discriminate H. }
  destruct (is_tuple_class c) eqn:T.
  - destruct (is_transparent c) eqn:Tr; [|discriminate V]. assert (V' : str_eqb k t = true) by exact V. apply str_eqb_eq in V'. now subst.
  - destruct (str_eqb c (s "MultiDict")); [discriminate V|auto].
Qed.
Lemma safe_get_pairs l d key default : all_pairs l = Some d -> safe (dict_get (VObj (s "MultiDict") [VList l]) key default)
  (fun x => x = default \/ exists k, In (k, x) d /\ veq k key = true).
Proof.
  intro D. unfold dict_get. eapply safe_bind with (P := fun d' => d' = d). { unfold dict, ChecksSafe.safe. cbn [pairs_of]. change (str_eqb (s "MultiDict") (s "MultiDict")) with true. cbv iota. rewrite D. reflexivity. }
  intros d' ->. destruct (get_some veq d key default) as [x [-> [[-> _]|H]]]; [now left|now right].
Qed.
Lemma blocked_by_ok : calm (check_blocked_by n p req).
Proof.
  unfold check_blocked_by. apply calm_when; [|apply calm_say]. destruct (status_in p [451%Z]) eqn:St; [|exact I]. apply calm_and; [exact I|]. apply calm_not.
  assert (S451 : p_status p = 451%Z). { unfold status_in in St. cbn [existsb] in St. apply orb_true_iff in St. destruct St as [St|St]; [now apply Z.eqb_eq in St|discriminate St]. }
  eapply safe_bind with (P := fun l => exists l0, gv "Link" = VList l0 /\ l = filter okay_value l0 /\ has_bad (VList l0) = false).
  { pose proof (@fit E http j "Link" _ eq_refl) as F. destruct F as [[l0 [G _]]|[]]. unfold items, value. eapply safe_bind with (P := fun v => v = VList l0 /\ has_bad v = false).
    - eapply safe_bind; [leaf|]. intros v [-> B]. unfold ChecksSafe.safe. cbn [ret snd]. split; [exact G|exact B].
    - intros v [-> B]. unfold ChecksSafe.safe. change (is_single (s "Link")) with false. cbn. eauto. }
  intros l [l0 [G [-> B]]]. apply calm_any. intros u U. apply filter_In in U. destruct U as [U O]. destruct (link_items http G U) as [[y ->]|[uri [ps [-> P]]]]; [discriminate O|].
  destruct P as [->|[r [-> R]]].
  { exfalso. cbn [has_bad] in B. assert (K : existsb has_bad l0 = true) by (apply existsb_exists; eexists; split; [exact U|]; cbn [has_bad existsb]; apply orb_true_r). congruence. }
  unfold is_blocked_by. eapply safe_bind; [apply f_param|]. intros v ->.
  assert (D : exists d, all_pairs r = Some d /\ forall k x, In (k, x) d -> In (VTuple [k; x]) r /\ relation_ok (VTuple [k; x])).
  { clear - R. induction R as [|u r H R [d [D IH]]]; [exists []; split; [reflexivity|intros k x []]|]. assert (H' := H). destruct H as [c [k [x [-> H]]]]. exists ((VObj c [VStr k], x) :: d). cbn [all_pairs unpack2]. rewrite D.
    split; [reflexivity|]. intros k' x' [Q|Q]; [injection Q as <- <-; split; [now left|exact H']|]. destruct (IH k' x' Q). split; [now right|assumption]. }
  destruct D as [d [D K]]. eapply safe_bind; [exact (safe_get_pairs _ _ D)|]. intros v [->|[k [I V]]]; [exact Logic.I|].
  destruct (K k v I) as [I' [c [k' [x [Q H]]]]]. injection Q as -> ->. assert (L : map lower_c k' = s "rel") by (apply (key_is V); reflexivity).
  destruct (H L) as [[l ->]|[y ->]]; [exact Logic.I|]. exact (relation_raises S451 G U I' L).
Qed.
Lemma filename_ok f : (exists t, f = VStr t) -> calm (check_filename n p req f).
Proof. intros [t ->]. unfold check_filename. cbn [str_like]. go. Qed.
Lemma disposition_ok : calm (check_disposition n p req).
Proof.
  unfold check_disposition. eapply safe_when; [leaf|]. intro O. apply eq_sym in O. destruct (disposition_value http O) as [k [l [G F]]].
  assert (D : exists d, all_pairs l = Some d /\ Forall (fun kx => exists t, fst kx = VObj (s "CaseInsensitive") [VStr t] /\ ((exists u, snd kx = VStr u) \/ map lower_c t = s "filename*")) d).
  { clear - F. induction F as [|u r [k [x [-> H]]] F [d [D IH]]]; [exists []; split; [reflexivity|constructor]|]. exists ((VObj (s "CaseInsensitive") [VStr k], x) :: d). cbn [all_pairs unpack2]. rewrite D.
    split; [reflexivity|]. constructor; [exists k; auto|exact IH]. }
  destruct D as [d [D K]].
  eapply safe_bind with (P := fun v => v = VObj (s "MultiDict") [VList l]). { eapply safe_bind; [leaf|]. intros v ->. unfold ChecksSafe.gv. rewrite G. reflexivity. }
  intros v ->. eapply safe_bind with (P := fun d' => d' = d). { unfold dict, ChecksSafe.safe. cbn [pairs_of]. change (str_eqb (s "MultiDict") (s "MultiDict")) with true. cbv iota. rewrite D. reflexivity. }
  intros d' ->. apply calm_then; [go|]. eapply safe_bind; [exact (safe_get_pairs _ _ D)|]. intros f Hf. rewrite Forall_forall in K. apply calm_then.
  { destruct Hf as [->|[k' [I V]]]; [exact Logic.I|]. destruct (K _ I) as [t [E1 E2]]. cbn [fst snd] in *. subst k'. assert (L : map lower_c t = s "filename") by (apply (key_is V); reflexivity).
    destruct E2 as [E2|E2]; [|rewrite L in E2; discriminate E2]. destruct (is_none f); [exact Logic.I|exact (filename_ok E2)]. }
  eapply safe_bind; [exact (safe_get_pairs _ _ D)|]. intros x Hx. destruct (is_none x) eqn:Nx; [exact Logic.I|]. destruct (is_none f) eqn:Nf; [apply calm_say|].
  destruct Hf as [->|[k1 [I1 V1]]]; [discriminate Nf|]. destruct Hx as [->|[k2 [I2 V2]]]; [discriminate Nx|]. unfold check_filename_order.
  destruct (index_some I1 V1) as [b B]. destruct (index_some I2 V2) as [a A]. rewrite A. eapply safe_bind with (P := fun _ => True); [exact Logic.I|]. intros a' _. rewrite B.
  eapply safe_bind with (P := fun _ => True); [exact Logic.I|]. intros b' _. go.
Qed.
Lemma alt_svc_ok : calm (check_alt_svc n p req). Proof. unfold check_alt_svc. go. Qed.
(** Directives of Strict-Transport-Security. *)
Lemma sts_items : okay_value (gv sts) = true -> safe (items j sts) (Forall (fun v => exists x y, v = VObj (s "Parametrized") [x; y] /\ y <> VBad)).
Proof.
  intro O. pose proof (@fit E http j sts _ eq_refl) as F. change (fits (OneOf [made_of StrictTransportSecurityView; Unread; Nothing]) (gv sts)) in F.
  destruct F as [F|[[u F]|[F|[]]]]; [|rewrite F in O; discriminate O|cbn [fits] in F; rewrite F in O; discriminate O].
  destruct F as [l [G F]]. unfold items. eapply safe_bind; [leaf|]. intros v ->. rewrite G. unfold ChecksSafe.safe. change (is_single (s sts)) with true. cbn [bind some_of ret snd app].
  eapply Forall_impl; [|exact F]. intros v X. apply fits_make2 in X. destruct X as [x [y [-> [_ Y]]]]. exists x, y. split; [reflexivity|]. intros ->. revert Y. clear. cbn. intros H.
  repeat match goal with H : _ \/ _ |- _ => destruct H | H : exists _, _ |- _ => destruct H | H : _ /\ _ |- _ => destruct H | H : VBad = _ |- _ => discriminate H | H : False |- _ => destruct H end.
Qed.
Lemma sts_directive key : okay_value (gv sts) = true -> calm (directive_of j sts key).
Proof.
  intro O. unfold directive_of. eapply safe_bind; [exact (sts_items O)|]. intros l F.
  assert (K : Forall (fun v => exists nm r, v = VObj (s "Parametrized") [nm; r]) l) by (eapply Forall_impl; [|exact F]; intros v [nm [r [-> _]]]; eauto).
  destruct (first_directive_in (s key) K) as [->|[->|[nm [r [V [Q ->]]]]]]; [exact I|exact I|]. rewrite Forall_forall in F. destruct (F _ V) as [n' [r' [Q' B]]]. injection Q' as <- <-. destruct r; try exact I. now destruct B.
Qed.
Lemma sts_ok : calm (check_sts n p req).
Proof.
  unfold check_sts. eapply safe_when; [leaf|]. intro O. apply eq_sym in O. apply calm_then.
  { apply calm_when; [|apply calm_say]. apply calm_not. unfold has_item. eapply safe_bind; [exact (sts_items O)|]. intros. apply calm_ret. }
  apply calm_then.
  { apply calm_when; [|apply calm_say]. apply calm_and; (eapply safe_bind; [exact (sts_directive _ O)|intros; apply calm_ret]). }
  eapply safe_bind; [exact (sts_items O)|]. intros l F. eapply safe_bind.
  { apply safe_map with (P := fun _ => True). intros v V. rewrite Forall_forall in F. destruct (F v V) as [x [y [-> _]]]. exact I. }
  intros. go.
Qed.
Lemma accept_patch_ok : calm (check_accept_patch n p req).
Proof.
  unfold check_accept_patch. eapply safe_bind; [leaf|]. intros l [F _]. apply calm_each. intros v V. rewrite Forall_forall in F. destruct (F v V) as [X _].
  apply fits_make2 in X. destruct X as [x [y [-> _]]]. eapply safe_bind; [apply f_item|]. intros i ->. go.
Qed.
Lemma response_pairs_ok : calm (check_response_pairs n p req).
Proof. unfold check_response_pairs. apply calm_each. intros d _. apply calm_when; [|apply calm_say]. apply calm_and; exact (cc_true_ok _). Qed.
Lemma overridden_ok : calm (check_overridden n p req).
Proof. unfold check_overridden. apply calm_each. intros d _. apply calm_when; [|apply calm_say]. apply calm_and; [exact (cc_true_ok _)|exact (cc_bare_ok _)]. Qed.
(** Vary is a list or a star. *)
Lemma vary_items other : calm (has_item j "Vary" other).
Proof. unfold has_item. eapply safe_bind; [eapply safe_star; [eassumption|eassumption|eassumption|known_shape|known_shape|known_shape]|]. intros. apply calm_ret. Qed.
Lemma vary_host_ok : calm (check_vary_host n p req).
Proof. unfold check_vary_host. apply calm_when; [|apply calm_say]. apply calm_and; [eapply safe_calm; leaf|exact (vary_items _)]. Qed.
Lemma challenge_missing_ok : calm (check_challenge_missing n p req). Proof. unfold check_challenge_missing. go. Qed.
Lemma proxy_challenge_missing_ok : calm (check_proxy_challenge_missing n p req). Proof. unfold check_proxy_challenge_missing. go. Qed.
Definition challenge_param (v : val) : Prop := is_str v = true \/ fits (params P_Types.ci Text) v.
Lemma basic_challenge_ok name v : challenge_param v -> calm (check_basic_challenge n p req name v).
Proof.
  intro P. unfold check_basic_challenge. destruct (is_str v) eqn:S; [apply calm_say|]. destruct P as [P|P]; [congruence|]. apply calm_then.
  { apply calm_when; [|apply calm_say]. apply calm_not. eapply calm_has. exact P. }
  eapply safe_bind; [eapply safe_dict; exact P|]. intros d D. apply calm_then; [|go]. apply calm_each. intros c C. apply getall_in in C. destruct C as [k C].
  rewrite Forall_forall in D. destruct (D _ C) as [_ [t T]]. cbn [snd] in T. subst c. eapply safe_bind with (P := fun _ => True); [exact I|]. intros. go.
Qed.
Lemma bearer_in_header_ok q : known (j_msg (of_request q)) -> calm (bearer_in_header q).
Proof.
  intro K. unfold bearer_in_header. eapply safe_calm, safe_and with (Q := fun _ => True); [leaf|]. intro O. apply eq_sym in O.
  pose proof (@fit_one E http (of_request q) "Authorization" _ eq_refl eq_refl O) as F. apply fits_make2 in F. destruct F as [x [y [F _]]].
  eapply safe_bind with (P := fun _ => True); [|intros; apply calm_ret]. eapply safe_bind; [leaf|]. intros v ->. rewrite F. exact I.
Qed.
Lemma request_token_ok q : known (j_msg (of_request q)) -> calm (request_has_token q).
Proof.
  intro K. unfold request_has_token. apply calm_or; [exact (bearer_in_header_ok K)|]. apply calm_or.
  - eapply safe_bind; [by_message url_encoded_ok|]. intros. apply calm_ret.
  - eapply safe_bind; [eapply query_ok; eassumption|]. intros. apply calm_ret.
Qed.
Lemma bearer_params_ok v token : challenge_param v -> is_str v = false -> calm (check_bearer_params n p req v token).
Proof.
  intros [P|P] S; [congruence|]. unfold check_bearer_params. eapply safe_bind; [eapply safe_dict; exact P|]. intros d _. apply calm_then; [go|]. apply calm_then; [go|]. apply calm_then.
  { apply calm_when; [|apply calm_say]. apply calm_and; [exact I|]. destruct req as [q|] eqn:R; [exact (bearer_in_header_ok (Kq eq_refl))|exact I]. }
  apply calm_then; [go|]. apply calm_when; [|go]. apply calm_and; [|exact I]. destruct req as [q|] eqn:R; [|exact I]. pose proof (Kq eq_refl) as K. by_message calm_absent.
Qed.
Lemma bearer_challenge_ok v : challenge_param v -> calm (check_bearer_challenge n p req v).
Proof.
  intro P. unfold check_bearer_challenge. eapply safe_bind with (P := fun _ => True).
  { destruct req as [q|] eqn:R; [|exact I]. apply calm_then; [go|]. eapply safe_bind; [exact (request_token_ok (Kq eq_refl))|]. intros. apply calm_ret. }
  intros token _. destruct (is_str v) eqn:S; [apply calm_say|]. cbn [orb]. destruct (negb (truthy_val v)); [apply calm_say|exact (bearer_params_ok _ P S)].
Qed.
Lemma challenges_ok : calm (check_challenges n p req).
Proof.
  unfold check_challenges. apply calm_each. intros name N.
  eapply safe_bind with (P := Forall (fun v => exists x y, v = VObj (s "Parametrized") [x; y] /\ challenge_param y)).
  { destruct N as [<-|[<-|[]]]; (eapply safe_impl; [|leaf]); intros l [F _]; (eapply Forall_impl; [|exact F]); intros v [X _]; apply fits_make2 in X; destruct X as [x [y [-> [_ Y]]]]; exists x, y; (split; [reflexivity|]).
    - destruct Y as [[t [-> _]]|[Y|[]]]; [left; reflexivity|right; exact Y].
    - destruct Y as [[t [-> _]]|[Y|[]]]; [left; reflexivity|right; exact Y]. }
  intros l F. apply calm_each. intros v V. rewrite Forall_forall in F. destruct (F v V) as [x [y [-> P]]]. eapply safe_bind; [apply f_item|]. intros i ->. eapply safe_bind; [apply f_param|]. intros i ->.
  apply calm_then; [destruct (veq x _); [exact (basic_challenge_ok _ P)|exact I]|]. destruct (_ && _); [exact (bearer_challenge_ok P)|exact I].
Qed.
Lemma no_body_status_ok : calm (check_no_body_status n p req). Proof. unfold check_no_body_status. go. Qed.
Lemma informational_close_ok : calm (check_informational_close n p req). Proof. unfold check_informational_close. go. Qed.
Lemma informational_metadata_ok : calm (check_informational_metadata n p req). Proof. unfold check_informational_metadata. go. Qed.
Lemma location_useless_ok : calm (check_location_useless n p req). Proof. unfold check_location_useless. go. Qed.
Lemma retry_after_ok : calm (check_retry_after n p req). Proof. unfold check_retry_after. go. Qed.
Lemma content_range_ok : calm (check_content_range n p req). Proof. unfold check_content_range. go. Qed.
Lemma from_cache_check_ok : calm (check_from_cache n p req).
Proof.
  unfold check_from_cache. apply calm_when; [exact (yes_ok from_cache_ok)|]. apply calm_then; [go|]. apply calm_then; [apply calm_when; [exact (cc_bare_ok _)|apply calm_say]|].
  apply calm_then; [apply calm_when; [exact (cc_true_ok _)|apply calm_say]|]. apply calm_then; go.
Qed.
Lemma heuristic_check_ok : calm (check_heuristic n p req).
Proof.
  unfold check_heuristic. apply calm_when; [exact (yes_ok heuristic_ok)|]. apply calm_then.
  { apply calm_when; [|apply calm_say]. apply calm_and; [|apply calm_not; eapply safe_calm; leaf]. apply compare_age; [exact Kj|]. intros _. eexists. reflexivity. }
  apply calm_if; [eapply safe_calm; leaf|apply calm_say|]. apply calm_when; [apply calm_not, cc_none_ok|apply calm_say].
Qed.
Lemma stale_check_ok : calm (check_stale n p req).
Proof.
  unfold check_stale. apply calm_when; [exact (yes_ok stale_ok)|]. apply calm_then; [go|]. apply calm_when; [exact (cc_true_ok _)|apply calm_say].
Qed.
Lemma immutable_ok : calm (check_immutable n p req).
Proof.
  unfold check_immutable. apply calm_when; [exact (cc_true_ok _)|]. apply calm_then.
  { apply calm_when; [|apply calm_say]. apply calm_and; [|apply calm_not, cc_true_ok]. apply calm_or; [by_message calm_absent|]. eapply safe_bind; [leaf|]. intros v ->.
    destruct timed_keys as [T1 [T2 _]]. exact (compare_times is_ge _ Kj T1 T2). }
  apply calm_then; [go|]. apply calm_when; [exact (yes_ok delimited_ok)|apply calm_say].
Qed.
Lemma allow_ok : calm (check_allow n p req). Proof. unfold check_allow. go. Qed.
Lemma via_missing_ok : calm (check_via_missing n p req).
Proof. unfold check_via_missing. apply calm_when; [|apply calm_say]. apply calm_and; [by_message transformed_ok|by_message calm_absent]. Qed.
Lemma calm_app l1 l2 : calm (seq l1) -> calm (seq l2) -> calm (seq (l1 ++ l2)).
Proof.
  intros A B. unfold seq in *. induction l1 as [|m l1 IH]; [exact B|]. cbn [app for_each] in *. unfold ChecksSafe.calm, ChecksSafe.safe, bind in *. destruct (m E) as [es [v|e]]; cbn [snd] in *; [|exact A].
  destruct (for_each l1 _ E) as [es1 r1]. cbn [snd] in *. specialize (IH A). destruct (for_each (l1 ++ l2) _ E) as [es2 r2]. exact IH.
Qed.
Lemma itself_ok : calm (check_response_itself n p req).
Proof.
  unfold check_response_itself, response_checks. apply calm_app; [apply calm_seq; intros m [<-|[]]; exact silence_itself_ok|]. apply calm_app; [exact (message_ok http link_raises proper_known library Kj _)|].
  apply calm_app; [|destruct (early p); [exact I|]]; apply calm_seq; intros m I; repeat (destruct I as [<-|I]; [lazymatch goal with
    | |- _ (check_reason _ _ _) => exact reason_ok | |- _ (check_status_range _ _ _) => exact status_range_ok | |- _ (check_close_option _ _ _) => exact close_option_ok
    | |- _ (check_response_headers _ _ _) => exact response_headers_ok | |- _ (check_switching _ _ _) => exact switching_ok | |- _ (check_no_content_body _ _ _) => exact no_content_body_ok
    | |- _ (check_reset_content_body _ _ _) => exact reset_content_body_ok | |- _ (check_location_missing _ _ _) => exact location_missing_ok | |- _ (check_odd_status _ _ _) => exact odd_status_ok
    | |- _ (check_allow_missing _ _ _) => exact allow_missing_ok | |- _ (check_timeout_close _ _ _) => exact timeout_close_ok | |- _ (check_date_missing _ _ _) => exact date_missing_ok
    | |- _ (check_created_fragment _ _ _) => exact created_fragment_ok | |- _ (check_last_modified _ _ _) => exact last_modified_ok | |- _ (check_304_headers _ _ _) => exact headers_304_ok
    | |- _ (check_partial_content _ _ _) => exact partial_content_ok | |- _ (check_response_directives _ _ _) => exact response_directives_ok | |- _ (check_pragma_no_cache _ _ _) => exact pragma_no_cache_ok
    | |- _ (check_blocked_by _ _ _) => exact blocked_by_ok | |- _ (check_disposition _ _ _) => exact disposition_ok | |- _ (check_alt_svc _ _ _) => exact alt_svc_ok | |- _ (check_sts _ _ _) => exact sts_ok
    | |- _ (check_accept_patch _ _ _) => exact accept_patch_ok | |- _ (check_response_pairs _ _ _) => exact response_pairs_ok | |- _ (check_overridden _ _ _) => exact overridden_ok
    | |- _ (check_vary_host _ _ _) => exact vary_host_ok | |- _ (check_challenge_missing _ _ _) => exact challenge_missing_ok | |- _ (check_proxy_challenge_missing _ _ _) => exact proxy_challenge_missing_ok
    | |- _ (check_challenges _ _ _) => exact challenges_ok | |- _ (check_no_body_status _ _ _) => exact no_body_status_ok | |- _ (check_informational_close _ _ _) => exact informational_close_ok
    | |- _ (check_informational_metadata _ _ _) => exact informational_metadata_ok | |- _ (check_location_useless _ _ _) => exact location_useless_ok | |- _ (check_retry_after _ _ _) => exact retry_after_ok
    | |- _ (check_content_range _ _ _) => exact content_range_ok | |- _ (check_from_cache _ _ _) => exact from_cache_check_ok | |- _ (check_heuristic _ _ _) => exact heuristic_check_ok
    | |- _ (check_stale _ _ _) => exact stale_check_ok | |- _ (check_immutable _ _ _) => exact immutable_ok | |- _ (check_allow _ _ _) => exact allow_ok | |- _ (check_via_missing _ _ _) => exact via_missing_ok end|]); destruct I.
Qed.

(** ** In the context of the request *)

Section Context.
Variable q : request.
Hypothesis Kr : known (j_msg (of_request q)).
Notation jq := (of_request q).
Notation gq := (ChecksSafe.gv E (of_request q)).

Lemma silence_from_request_ok : calm (silence_from_request n p req q).
Proof. unfold silence_from_request. eapply safe_bind; [leaf|]. intros l [F _]. eapply safe_bind; [exact (silence_ids_ok _ _ _ F)|]. intros. apply calm_silence. Qed.
Lemma untyped_ok : calm (check_untyped n p req q). Proof. unfold check_untyped. go. Qed.
Lemma connect_ok : calm (check_connect n p req q). Proof. unfold check_connect. go. Qed.
Lemma head_body_ok : calm (check_head_body n p req q). Proof. unfold check_head_body. go. Qed.
Lemma te_to_http10_ok : calm (check_te_to_http10 n p req q). Proof. unfold check_te_to_http10. go. Qed.
Lemma bad_host_ok : calm (check_bad_host n p req q). Proof. unfold check_bad_host. go. Qed.
Lemma to_proxy_ok : calm (is_to_proxy q).
Proof. unfold is_to_proxy. destruct (version_in _ _); [|exact I]. eapply safe_bind; [by_message target_form_ok|]. intros form _. go. Qed.
Lemma proxy_transformed_ok : calm (check_proxy_transformed n p req q).
Proof.
  unfold check_proxy_transformed. apply calm_when; [|apply calm_say]. apply calm_and; [by_message transformed_ok|]. eapply safe_bind; [exact to_proxy_ok|]. intros. apply calm_ret.
Qed.
Lemma proxy_via_ok : calm (check_proxy_via n p req q).
Proof.
  unfold check_proxy_via. apply calm_when; [|apply calm_say]. apply calm_and; [eapply safe_bind; [exact to_proxy_ok|]; intros; apply calm_ret|]. apply calm_and; [exact I|by_message calm_absent].
Qed.
Lemma switched_ok : calm (check_switched n p req q).
Proof.
  unfold check_switched. destruct (status_in p _); [|go]. eapply safe_bind; [leaf|]. intros l [F _]. apply calm_then; [|go]. apply calm_each. intros v V. rewrite Forall_forall in F. destruct (F v V) as [X _].
  apply fits_make2 in X. destruct X as [x [y [-> _]]]. apply calm_if; [apply calm_not; eapply safe_calm; leaf|apply calm_say|]. eapply safe_bind; [apply f_name|]. intros i ->. go.
Qed.
Lemma same_uri_ok name : calm (same_uri n p req q name).
Proof.
  unfold same_uri. apply calm_and; [eapply safe_calm; leaf|]. eapply safe_bind; [by_message effective_uri_ok|]. intros [[|c u]|] _; try exact I.
  eapply safe_bind; [leaf|]. intros v _. eapply safe_bind; [apply safe_ask|]. intros join ->. eapply safe_bind; [apply result_calm, lr_join|]. intros. apply calm_ret.
Qed.
Lemma content_location_ok : calm (check_content_location n p req q).
Proof. unfold check_content_location. apply calm_when; [exact (same_uri_ok _)|go]. Qed.
Lemma self_redirect_ok : calm (check_self_redirect n p req q).
Proof.
  unfold check_self_redirect. apply calm_when; [|go]. apply calm_and; [eapply safe_calm; leaf|]. apply calm_and; [eapply safe_bind; [by_message effective_uri_ok|]; intros; apply calm_ret|].
  apply calm_and; [exact I|exact (same_uri_ok _)].
Qed.
Lemma partial_put_ok : calm (check_partial_put n p req q). Proof. unfold check_partial_put. go. Qed.
Lemma safe_method_ok : calm (check_safe_method n p req q). Proof. unfold check_safe_method. go. Qed.
Lemma created_location_ok : calm (check_created_location n p req q). Proof. unfold check_created_location. go. Qed.
Lemma empty_body_ok : calm (check_empty_body n p req q). Proof. unfold check_empty_body. go. Qed.
Lemma asterisk_redirect_ok : calm (check_asterisk_redirect n p req q).
Proof.
  unfold check_asterisk_redirect. apply calm_when; [|apply calm_say]. apply calm_and; [exact I|]. apply calm_and; [|exact I]. eapply safe_bind; [by_message target_form_ok|]. intros. apply calm_ret.
Qed.
Lemma not_acceptable_ok : calm (check_not_acceptable n p req q). Proof. unfold check_not_acceptable. go. Qed.
Lemma length_required_ok : calm (check_length_required n p req q). Proof. unfold check_length_required. go. Qed.
Lemma no_request_body_ok : calm (check_no_request_body n p req q). Proof. unfold check_no_request_body. go. Qed.
Lemma expectation_ok : calm (check_expectation n p req q). Proof. unfold check_expectation. go. Qed.
Lemma first_common_ok l : calm (first_common n p req q l).
Proof. induction l as [|v l IH]; [exact I|]. cbn [first_common]. apply calm_if; [eapply safe_calm; leaf|go|exact IH]. Qed.
Lemma common_upgrade_ok : calm (check_common_upgrade n p req q).
Proof. unfold check_common_upgrade. eapply safe_bind; [leaf|]. intros l _. apply first_common_ok. Qed.
Lemma upgrade_required_ok : calm (check_upgrade_required n p req). Proof. unfold check_upgrade_required. go. Qed.
Lemma version_refused_ok : calm (check_version_refused n p req q). Proof. unfold check_version_refused. go. Qed.
Lemma allowed_check_ok : calm (check_allowed n p req q). Proof. unfold check_allowed, method_allowed. go. Qed.
Lemma etag_is : okay_value (gv "ETag") = true -> exists w t, gv "ETag" = VObj (s "EntityTag") [w; t].
Proof. intro O. pose proof (@fit_one E http j "ETag" _ eq_refl eq_refl O) as F. apply fits_make2 in F. destruct F as [w [t [F _]]]. eauto. Qed.
Lemma weak_equiv_ok w t w' t' : calm (weak_equiv (VObj (s "EntityTag") [w; t]) (VObj (s "EntityTag") [w'; t'])).
Proof. unfold weak_equiv. eapply safe_bind; [apply f_opaque|]. intros x ->. eapply safe_bind; [apply f_opaque|]. intros. apply calm_ret. Qed.
Lemma strong_equiv_ok w t w' t' : calm (strong_equiv (VObj (s "EntityTag") [w; t]) (VObj (s "EntityTag") [w'; t'])).
Proof.
  unfold strong_equiv. apply calm_and; [eapply safe_bind; [apply f_weak|]; intros; apply calm_ret|]. apply calm_and; [eapply safe_bind; [apply f_weak|]; intros; apply calm_ret|]. apply weak_equiv_ok.
Qed.
Lemma not_modified_ok : calm (check_not_modified_needed n p req q).
Proof.
  unfold check_not_modified_needed. destruct (_ && _); [|exact I]. eapply safe_if; [leaf| |].
  - intro O. apply eq_sym in O. destruct (etag_is O) as [w [t G]]. eapply safe_if; [leaf|intros; apply calm_say|]. intro N. apply calm_when; [|apply calm_say].
    eapply safe_bind; [eapply safe_star; [eassumption|eassumption|exact Kr|known_shape|known_shape|known_shape]|]. intros l [B|F]; [exfalso; rewrite B in N; discriminate N|].
    apply calm_any. intros v V. rewrite Forall_forall in F. destruct (F v V) as [X _]. apply fits_make2 in X. destruct X as [x [y [-> _]]]. eapply safe_bind; [leaf|]. intros e ->. rewrite G. apply weak_equiv_ok.
  - intros _. apply calm_when; [|apply calm_say]. eapply safe_bind; [leaf|]. intros v ->. destruct timed_keys as [_ [_ [T1 T2]]]. exact (compare_times is_ge _ Kr T2 T1).
Qed.
Lemma no_precondition_ok : calm (check_no_precondition n p req q). Proof. unfold check_no_precondition. go. Qed.
Lemma range_is : okay_value (gq "Range") = true -> exists u r, gq "Range" = VObj (s "RangeSpecifier") [u; r] /\ calm (size_of r).
Proof.
  intro O. pose proof (@fit_one E http jq "Range" _ eq_refl eq_refl O) as F. apply fits_make2 in F. destruct F as [u [r [F [_ R]]]]. exists u, r. split; [exact F|].
  destruct R as [[t ->]|[[l [-> _]]|[]]]; exact I.
Qed.
Lemma bytes_range_ok : safe (bytes_range q) (fun b => b = true -> okay_value (gq "Range") = true).
Proof.
  unfold bytes_range. eapply safe_impl; [|eapply safe_and with (Q := fun _ => True); [leaf|]].
  - intros [|] H Q; [|discriminate Q]. destruct H as [H _]. exact (eq_sym H).
  - intro O. apply eq_sym in O. destruct (range_is O) as [u [r [G _]]]. eapply safe_bind with (P := fun _ => True); [|intros; apply calm_ret]. eapply safe_bind; [leaf|]. intros v ->. rewrite G. exact I.
Qed.
Lemma partial_range_ok : calm (check_partial_range n p req q). Proof. unfold check_partial_range. go. Qed.
Lemma single_range_ok : calm (check_single_range n p req q).
Proof.
  unfold check_single_range. apply calm_when; [|apply calm_say]. apply calm_and; [exact I|]. apply calm_and; [eapply safe_calm; leaf|].
  eapply safe_calm, safe_and with (Q := fun _ => True); [exact bytes_range_ok|]. intro O. specialize (O eq_refl). destruct (range_is O) as [u [r [G R]]].
  eapply safe_bind with (P := fun v => v = r). { eapply safe_bind; [leaf|]. intros v ->. rewrite G. reflexivity. }
  intros v ->. eapply safe_bind; [exact R|]. intros. apply calm_ret.
Qed.
Lemma if_range_tag_ok : calm (check_if_range_tag n p req q).
Proof.
  unfold check_if_range_tag. apply calm_when; [|apply calm_say]. apply calm_and; [exact I|].
  eapply safe_calm, safe_and with (P := fun b => b = true -> is_tag (gq "If-Range") = true) (Q := fun _ => True). { eapply safe_bind; [leaf|]. intros v ->. unfold ChecksSafe.safe. cbn. auto. }
  intro T. specialize (T eq_refl). eapply safe_calm, safe_and with (Q := fun _ => True); [leaf|]. intro O. apply eq_sym in O. destruct (etag_is O) as [w [t G]].
  assert (O2 : okay_value (gq "If-Range") = true) by (destruct (gq "If-Range"); try discriminate T; reflexivity).
  destruct (@fit_one E http jq "If-Range" _ eq_refl eq_refl O2) as [F|[[F|[F|[]]]|[]]].
  - apply fits_make2 in F. destruct F as [x [y [F _]]]. eapply safe_bind; [leaf|]. intros v ->. eapply safe_bind; [leaf|]. intros e ->. rewrite F, G. apply calm_not, strong_equiv_ok.
  - exfalso. destruct F as [l [F _]]. rewrite F in T. discriminate T.
  - exfalso. destruct F as [u F]. rewrite F in T. discriminate T.
Qed.
Lemma if_range_metadata_ok : calm (check_if_range_metadata n p req q). Proof. unfold check_if_range_metadata. go. Qed.
Lemma range_refused_ok : calm (check_range_refused n p req q).
Proof.
  unfold check_range_refused. destruct (status_in p _); [|exact I]. apply calm_then; [go|]. apply calm_when; [|apply calm_say]. apply calm_and; [eapply safe_calm; exact bytes_range_ok|by_message calm_absent].
Qed.
Lemma qcc_ok key : calm (qcc q key).
Proof. eapply safe_calm. unfold qcc. by_message directive_ok. Qed.
Lemma cache_in_context_ok : calm (check_cache_in_context n p req q).
Proof.
  unfold check_cache_in_context. apply calm_when; [exact (yes_ok from_cache_ok)|]. apply calm_then; [go|]. apply calm_then.
  { apply calm_when; [|apply calm_say]. eapply safe_bind; [exact (max_age_ok Kr)|]. intros v V. exact (compare_age is_gt Kj V). }
  apply calm_if; [eapply safe_bind; [exact (qcc_ok _)|]; intros; apply calm_ret|apply calm_say|go].
Qed.
Lemma stale_in_context_ok : calm (check_stale_in_context n p req q).
Proof.
  unfold check_stale_in_context. apply calm_when; [|apply calm_say]. apply calm_and; [exact (yes_ok stale_ok)|]. apply calm_and; [apply calm_not; eapply safe_calm; leaf|].
  apply calm_and; [apply calm_not; eapply safe_calm; leaf|]. apply calm_and; [eapply safe_bind; [exact (qcc_ok _)|]; intros; apply calm_ret|].
  apply calm_and; [eapply safe_bind; [exact (qcc_ok _)|]; intros; apply calm_ret|]. apply calm_and; exact (cc_none_ok _).
Qed.
Lemma precondition_required_ok : calm (check_precondition_required n p req q). Proof. unfold check_precondition_required. go. Qed.
Lemma patch_response_ok : calm (check_patch_response n p req q).
Proof.
  unfold check_patch_response. destruct (by_method _ _); [|exact I]. apply calm_then; [|go]. apply calm_when; [|apply calm_say]. apply calm_and; [exact I|].
  eapply safe_calm, safe_and with (Q := fun _ => True); [leaf|]. intro O. apply eq_sym in O. eapply safe_bind; [eapply content_type_item; eassumption|]. intros. apply calm_ret.
Qed.
Lemma sts_over_http_ok : calm (check_sts_over_http n p req q). Proof. unfold check_sts_over_http. go. Qed.
Lemma misdirected_ok : calm (check_misdirected n p req q).
Proof. unfold check_misdirected. apply calm_when; [|apply calm_say]. apply calm_and; [exact I|]. apply calm_not, cc_true_ok. Qed.
Lemma applied_ok : calm (check_applied n p req q).
Proof.
  unfold check_applied. eapply safe_bind; [leaf|]. intros l [F _]. apply calm_each. intros v V. rewrite Forall_forall in F. destruct (F v V) as [X _]. apply fits_make2 in X. destruct X as [x [y [-> _]]].
  eapply safe_bind; [by_message without_params_ok|]. intros ps _. apply calm_when; [exact I|]. eapply safe_bind; [apply f_item|]. intros i ->. eapply safe_bind; [apply f_param|]. intros. apply calm_say.
Qed.
Lemma options_patch_ok : calm (check_options_patch n p req q). Proof. unfold check_options_patch. go. Qed.
Lemma vary_prefer_ok : calm (check_vary_prefer n p req q).
Proof.
  unfold check_vary_prefer. apply calm_when; [|apply calm_say]. apply calm_and; [eapply safe_calm; leaf|]. apply calm_and; [exact I|]. apply calm_and; [eapply safe_calm; leaf|]. apply calm_not, vary_items.
Qed.
Lemma context_ok : calm (check_response_in_context n p req q).
Proof.
  unfold check_response_in_context, context_checks. apply calm_app; [|destruct (early p); [exact I|]]; apply calm_seq; intros m I; repeat (destruct I as [<-|I]; [lazymatch goal with
    | |- _ (silence_from_request _ _ _ _) => exact silence_from_request_ok | |- _ (check_untyped _ _ _ _) => exact untyped_ok | |- _ (check_connect _ _ _ _) => exact connect_ok
    | |- _ (check_head_body _ _ _ _) => exact head_body_ok | |- _ (check_te_to_http10 _ _ _ _) => exact te_to_http10_ok | |- _ (check_bad_host _ _ _ _) => exact bad_host_ok
    | |- _ (check_proxy_transformed _ _ _ _) => exact proxy_transformed_ok | |- _ (check_proxy_via _ _ _ _) => exact proxy_via_ok | |- _ (check_switched _ _ _ _) => exact switched_ok
    | |- _ (check_content_location _ _ _ _) => exact content_location_ok | |- _ (check_self_redirect _ _ _ _) => exact self_redirect_ok | |- _ (check_partial_put _ _ _ _) => exact partial_put_ok
    | |- _ (check_safe_method _ _ _ _) => exact safe_method_ok | |- _ (check_created_location _ _ _ _) => exact created_location_ok | |- _ (check_empty_body _ _ _ _) => exact empty_body_ok
    | |- _ (check_asterisk_redirect _ _ _ _) => exact asterisk_redirect_ok | |- _ (check_not_acceptable _ _ _ _) => exact not_acceptable_ok | |- _ (check_length_required _ _ _ _) => exact length_required_ok
    | |- _ (check_no_request_body _ _ _ _) => exact no_request_body_ok | |- _ (check_expectation _ _ _ _) => exact expectation_ok | |- _ (check_common_upgrade _ _ _ _) => exact common_upgrade_ok
    | |- _ (check_upgrade_required _ _ _) => exact upgrade_required_ok | |- _ (check_version_refused _ _ _ _) => exact version_refused_ok | |- _ (check_allowed _ _ _ _) => exact allowed_check_ok
    | |- _ (check_not_modified_needed _ _ _ _) => exact not_modified_ok | |- _ (check_no_precondition _ _ _ _) => exact no_precondition_ok | |- _ (check_partial_range _ _ _ _) => exact partial_range_ok
    | |- _ (check_single_range _ _ _ _) => exact single_range_ok | |- _ (check_if_range_tag _ _ _ _) => exact if_range_tag_ok | |- _ (check_if_range_metadata _ _ _ _) => exact if_range_metadata_ok
    | |- _ (check_range_refused _ _ _ _) => exact range_refused_ok | |- _ (check_cache_in_context _ _ _ _) => exact cache_in_context_ok | |- _ (check_stale_in_context _ _ _ _) => exact stale_in_context_ok
    | |- _ (check_precondition_required _ _ _ _) => exact precondition_required_ok | |- _ (check_patch_response _ _ _ _) => exact patch_response_ok | |- _ (check_sts_over_http _ _ _ _) => exact sts_over_http_ok
    | |- _ (check_misdirected _ _ _ _) => exact misdirected_ok | |- _ (check_applied _ _ _ _) => exact applied_ok
    | |- _ (check_options_patch _ _ _ _) => exact options_patch_ok | |- _ (check_vary_prefer _ _ _ _) => exact vary_prefer_ok end|]); destruct I.
Qed.
End Context.
Lemma response_ok : calm (check_response n p req).
Proof.
  unfold check_response. apply calm_then; [exact itself_ok|]. destruct req as [q|] eqn:R; [|exact I]. exact (context_ok (Kq eq_refl)).
Qed.
End Response.
