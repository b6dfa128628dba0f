(** What is known about the value of a header when a check looks at it. *)
From Coq Require Import ZifyBool ZifyNat ZifyN String.
From Verif Require Import Base Earley Grammar Syntax Actions Reading Nested NestedTypes Types P_Types Text Structure Known Tables Header HeaderProofs P_Header P_Views Values
  ViewFacts ChecksBase ChecksLogic ChecksViews.
Open Scope nat_scope.
Open Scope list_scope.
Unset Strict Implicit.
Local Open Scope string_scope.
Local Open Scope list_scope.

(** ** From entries to views *)

Section Views.
Variable read : symbol -> str -> option (val * list vcomplaint).
Hypothesis http : parses_http read.

(** The view of a header of a message. *)
Definition got_view (m : entries) (name : str) : Header.view :=
  match class_of name with Some c => parse_view read c m name | None => View [] VNone [] end.
Lemma got_is m name : view_is read m name (got_view m name).
Proof. apply view_is_iff. unfold got_view. destruct (class_of_total name) as [c C]. exists c. now rewrite C. Qed.

Lemma plain_entry c name x p e : (c = SingleView \/ c = MultiView) -> syntax_for name = Some x ->
  (exists y, fst (read_entry read c name p e) = VUnavailable y) \/ (exists w cs, read x w = Some (fst (read_entry read c name p e), cs)).
Proof.
  intros C X. unfold read_entry. rewrite X. destruct (read x (e_value e)) as [[v cs]|] eqn:R; [|left; eexists; reflexivity].
  right. exists (e_value e), cs. rewrite R. destruct (is_unavailable v); [reflexivity|]. destruct C as [->| ->]; reflexivity.
Qed.
Lemma single_view m name x : class_of name = Some SingleView -> syntax_for name = Some x ->
  v_value (got_view m name) = VNone \/ (exists y, v_value (got_view m name) = VUnavailable y) \/ (exists w cs, read x w = Some (v_value (got_view m name), cs)).
Proof.
  intros C X. unfold got_view. rewrite C. unfold parse_view. rewrite pre_parse_eq. cbn [combine_entries]. unfold parse_single.
  set (us := filter (kept name) (enumerate m name)). rewrite <- map_rev. destruct (rev us) as [|u r]; [left; reflexivity|]. cbn [map]. right.
  exact (plain_entry (fst u) (snd u) (or_introl eq_refl) X).
Qed.
Lemma multi_values (P : val -> Prop) es name vs : (forall v, In v vs -> (exists y, v = VUnavailable y) \/ P v) ->
  (exists l, snd (fst (parse_multi name es vs)) = VList l /\ forall u, In u l -> (exists y, u = VUnavailable y) \/ exists l', P (VList l') /\ In u l') \/
  (is_list (snd (fst (parse_multi name es vs))) = false /\ P (snd (fst (parse_multi name es vs)))).
Proof.
  intro H. unfold parse_multi. destruct (filter (fun v => negb (is_list v || is_unavailable v)) vs) as [|v sg] eqn:F; cbn [fst snd].
  - left. eexists. split; [reflexivity|]. intros u I. unfold extend in I. apply in_flat_map in I. destruct I as [v [Iv Iu]].
    assert (NS : negb (is_list v || is_unavailable v) = false).
    { destruct (negb (is_list v || is_unavailable v)) eqn:Q; [|reflexivity]. assert (X : In v []) by (rewrite <- F; apply filter_In; auto). destruct X. }
    destruct (H v Iv) as [[y ->]|Pv]; [left; destruct Iu as [<-|[]]; eauto|].
    destruct v; try discriminate NS; [right; eauto|]. left. destruct Iu as [<-|[]]. eauto.
  - assert (Iv : In v vs /\ negb (is_list v || is_unavailable v) = true) by (apply (@filter_In _ (fun v => negb (is_list v || is_unavailable v))); rewrite F; now left). destruct Iv as [Iv NS].
    destruct (_ && _); cbn [fst snd].
    + right. destruct (H v Iv) as [[y ->]|Pv]; [discriminate NS|]. split; [destruct (is_list v); [discriminate NS|reflexivity]|exact Pv].
    + left. eexists. split; [reflexivity|]. intros u [<-|[]]. left. eauto.
Qed.
Lemma multi_view m name x : class_of name = Some MultiView -> syntax_for name = Some x ->
  (exists l, v_value (got_view m name) = VList l /\ forall u, In u l -> (exists y, u = VUnavailable y) \/ exists l' w cs, read x w = Some (VList l', cs) /\ In u l') \/
  (is_list (v_value (got_view m name)) = false /\ exists w cs, read x w = Some (v_value (got_view m name), cs)).
Proof.
  intros C X. unfold got_view. rewrite C. unfold parse_view. rewrite pre_parse_eq. cbn [combine_entries].
  set (us := filter (kept name) (enumerate m name)). set (vs := map (fun x => fst (read_entry read MultiView name (fst x) (snd x))) us).
  assert (G : forall v, In v vs -> (exists y, v = VUnavailable y) \/ exists w cs, read x w = Some (v, cs)).
  { intros v I. unfold vs in I. apply in_map_iff in I. destruct I as [u [<- _]]. exact (plain_entry (fst u) (snd u) (or_intror eq_refl) X). }
  pose proof (multi_values us name G) as K. destruct (parse_multi name us vs) as [[es v] ns]. cbn [v_value fst snd] in *.
  destruct K as [[l [-> K]]|K]; [left|right; exact K]. exists l. split; [reflexivity|]. intros u I. destruct (K u I) as [Y|[l' [[w [cs R]] I']]]; [now left|right; eauto 6].
Qed.

(** ** Headers whose shape does not say enough *)

Lemma reads_M x w v cs : read x w = Some (v, cs) -> exists nst again, parses nst again /\ GrammarCalc.M rec_rules (pyfun (nested again)) x w v cs.
Proof.
  intro R. destruct http as [nst [again [A B]]]. destruct (B _ _ _ _ R) as [ann [r [H [<- <-]]]]. apply reads_accepted in H. eauto.
Qed.
Lemma read_fits x sh w v cs : forallb (inside sh) (infer nested_ty rec_ty x) = true -> read x w = Some (v, cs) -> fits sh v.
Proof.
  intros C R. pose proof (http_typed http R) as H. apply hasu_iff in H. destruct H as [t [It Ht]]. eapply inside_ok; [|exact Ht]. exact (proj1 (forallb_forall _ _) C t It).
Qed.
Lemma pragma_items m l u : v_value (got_view m (s "Pragma")) = VList l -> In u l -> (exists y, u = VUnavailable y) \/ pragma_ok u.
Proof.
  intros E I. destruct (@multi_view m (s "Pragma") Pragma eq_refl eq_refl) as [[l0 [E0 H]]|[N [w [cs R]]]].
  - rewrite E in E0. injection E0 as <-. destruct (H u I) as [Y|[l' [w [cs [R I']]]]]; [now left|right].
    destruct (reads_M R) as [nst [again [_ K]]]. apply pragma_means in K. destruct K as [l2 [E2 F]]. injection E2 as ->. rewrite Forall_forall in F. auto.
  - rewrite E in N. discriminate N.
Qed.
Lemma warning_items m l u : v_value (got_view m (s "Warning")) = VList l -> In u l -> (exists y, u = VUnavailable y) \/ warning_ok u.
Proof.
  intros E I. destruct (@multi_view m (s "Warning") Warning_ eq_refl eq_refl) as [[l0 [E0 H]]|[N [w [cs R]]]].
  - rewrite E in E0. injection E0 as <-. destruct (H u I) as [Y|[l' [w [cs [R I']]]]]; [now left|right].
    destruct (reads_M R) as [nst [again [_ K]]]. apply warning_means in K. destruct K as [l2 [E2 F]]. injection E2 as ->. rewrite Forall_forall in F. auto.
  - rewrite E in N. discriminate N.
Qed.
Lemma link_items m l u : v_value (got_view m (s "Link")) = VList l -> In u l -> (exists y, u = VUnavailable y) \/ link_ok u.
Proof.
  intros E I. destruct (@multi_view m (s "Link") Link eq_refl eq_refl) as [[l0 [E0 H]]|[N [w [cs R]]]].
  - rewrite E in E0. injection E0 as <-. destruct (H u I) as [Y|[l' [w [cs [R I']]]]]; [now left|right].
    destruct (reads_M R) as [nst [again [P K]]]. apply (link_means P) in K. destruct K as [l2 [E2 F]]. injection E2 as ->. rewrite Forall_forall in F. auto.
  - rewrite E in N. discriminate N.
Qed.
Lemma disposition_value m : okay_value (v_value (got_view m (s "Content-Disposition"))) = true ->
  exists k l, v_value (got_view m (s "Content-Disposition")) = VObj (s "Parametrized") [k; VObj (s "MultiDict") [VList l]] /\ Forall parm_ok l.
Proof.
  intro O. destruct (@single_view m (s "Content-Disposition") content_disposition eq_refl eq_refl) as [E|[[y E]|[w [cs R]]]]; [rewrite E in O; discriminate O|rewrite E in O; discriminate O|].
  destruct (reads_M R) as [nst [again [_ K]]]. now apply disposition_means in K.
Qed.

(** Elements of Cache-Control. *)
Lemma judged_whole p c n given r ns : lower n = s "max-age" -> judged read true cache_directive_table p c n given r ns -> fits (Unread or Whole) r.
Proof.
  intros L J. assert (F : exists i, find_arg true cache_directive_table n = Some i /\ ak_argument i = Some ArgRequired /\ ak_syntax i = Some delta_seconds).
  { assert (X : find_arg true cache_directive_table n = find_arg true cache_directive_table (s "max-age")).
    { clear J. assert (Y : lower n = lower (s "max-age")) by exact L. clear L. induction cache_directive_table as [|i t IH]; [reflexivity|]. cbn [find_arg]. unfold ci_eq. rewrite Y. destruct (str_eqb _ _); [reflexivity|exact IH]. }
    rewrite X. eexists. split; [vm_compute; reflexivity|]. split; reflexivity. }
  destruct F as [i [F [A S]]]. assert (K : knows true cache_directive_table n i) by (apply (find_arg_knows n i (or_introl eq_refl)); exact F).
  assert (U : forall j, knows true cache_directive_table n j -> j = i) by (intros j Kj; apply (find_arg_knows n j (or_introl eq_refl)) in Kj; congruence).
  destruct J as [j Kj Aj|N|j w Kj Aj|j w x v cs Kj Aj Sj R|j w x Kj Aj Sj R|w N].
  - left. eexists. reflexivity.
  - destruct (N _ K A).
  - left. eexists. reflexivity.
  - rewrite (U _ Kj) in Sj. rewrite S in Sj. assert (x = delta_seconds) by congruence. subst x. right. left.
    eapply read_fits; [|exact R]. vm_compute. reflexivity.
  - left. eexists. reflexivity.
  - destruct (N _ K) as [_ B]. congruence.
Qed.
Definition cache_ok (u : val) : Prop :=
  exists n r, u = VObj (s "Parametrized") [VObj (s "CacheDirective") [VStr n]; r] /\ (lower n = s "max-age" -> fits (Unread or Whole) r).
Lemma pair_class c n r c' n' r' : pair_of c n r = pair_of c' n' r' -> c = c'.
Proof. unfold pair_of, word. generalize (s "Parametrized"). intros k H. congruence. Qed.
Lemma cache_value p v l : fits (raw_shape CacheControlView) v -> fst (process_parsed read (SpecialView CacheControlView) p v) = VList l -> Forall cache_ok l.
Proof.
  intros [l0 [-> F]]. cbn [process_parsed]. rewrite each_of_list. cbn [fst]. intro E. injection E as <-.
  revert F. apply each_forall. intros d D. assert (D' := D). apply fits_make2 in D'. destruct D' as [x [y [-> [Hx _]]]]. apply fits_name in Hx. destruct Hx as [n ->].
  destruct (directive_judged read p D) as [c [n' [r [E J]]]]. rewrite E.
  assert (Q : c = s "CacheDirective") by (destruct J as [[J _]|[? [? [? [? [J _]]]]]]; exact (eq_sym (pair_class J))). subst c. exists n', r. split; [reflexivity|]. intro L.
  destruct J as [[_ J]|[? [? [? [? [_ [_ [J _]]]]]]]]; exact (judged_whole L J).
Qed.
Lemma cache_items m l u : v_value (got_view m (s "Cache-Control")) = VList l -> In u l -> (exists y, u = VUnavailable y) \/ cache_ok u.
Proof.
  intros E I. revert E. unfold got_view. change (class_of (s "Cache-Control")) with (Some (SpecialView CacheControlView)). cbv iota. unfold parse_view. rewrite pre_parse_eq. cbn [combine_entries].
  set (us := filter (kept (s "Cache-Control")) (enumerate m (s "Cache-Control"))).
  set (vs := map (fun x => fst (read_entry read (SpecialView CacheControlView) (s "Cache-Control") (fst x) (snd x))) us).
  assert (G : forall v, In v vs -> (exists y, v = VUnavailable y) \/ exists l, v = VList l /\ Forall cache_ok l).
  { intros v J. unfold vs in J. apply in_map_iff in J. destruct J as [[p e] [<- _]]. cbn [fst snd]. unfold read_entry.
    change (syntax_for (s "Cache-Control")) with (Some Cache_Control). cbv iota. destruct (read Cache_Control (e_value e)) as [[v cs]|] eqn:R; [|left; eexists; reflexivity].
    assert (F : fits (raw_shape CacheControlView) v) by (eapply read_fits; [|exact R]; vm_compute; reflexivity).
    rewrite (raw_not_unavailable F). assert (F' := F). destruct F' as [l0 [-> _]]. pose proof (@cache_value p (VList l0) (fst (Header.each (process_directive read p) l0)) F) as K.
    cbn [process_parsed] in *. rewrite each_of_list in *. cbn [fst] in *. right. eexists. split; [reflexivity|]. now apply K. }
  pose proof (multi_values us (s "Cache-Control") G) as K. destruct (parse_multi (s "Cache-Control") us vs) as [[es v] ns]. cbn [v_value fst snd] in *. intros ->.
  destruct K as [[l0 [E0 K]]|[N _]]; [|discriminate N]. injection E0 as <-. destruct (K u I) as [Y|[l' [[l2 [E2 F]] I']]]; [now left|right]. injection E2 as ->. rewrite Forall_forall in F. auto.
Qed.
End Views.
