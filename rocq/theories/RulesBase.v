(** Rules.v and the operations that checks are made of. *)
From Coq Require Import ZifyBool ZifyNat ZifyN String.
From Verif Require Import Base Earley Grammar Syntax Actions Nested P_Types Text Structure Known Tables Header HeaderProofs P_Header P_Views P_Util Values Notices
  ChecksBase ChecksLogic ChecksViews ChecksFacts ChecksSays ChecksMessage ChecksRequest ChecksResponse HeaderValue P_Bodies RulesLogic Rules.
Open Scope nat_scope.
Open Scope list_scope.
Unset Strict Implicit.
Local Open Scope string_scope.
Local Open Scope list_scope.

(** ** Knowledge *)

Lemma readable_okay v : readable v <-> okay_value v = true.
Proof. unfold readable. destruct v; cbn [okay_value]; split; intro H; try discriminate H; try reflexivity; try (split; [discriminate|intro; discriminate]); exfalso; destruct H as [H K]; [now apply H|now eapply K]. Qed.
Lemma not_readable v : ~ readable v <-> okay_value v = false.
Proof. rewrite readable_okay. destruct (okay_value v); split; congruence. Qed.
Lemma one_of_strs_iff x l : one_of_strs x l = true <-> is_one x l.
Proof.
  unfold one_of_strs, is_one. rewrite existsb_exists. split; intros [k [I H]]; exists k; (split; [exact I|]); [apply str_eqb_eq in H; congruence|apply str_eqb_eq; congruence].
Qed.
Lemma version_in_iff v l : version_in v l = true <-> exists x, v = Some x /\ is_one x l.
Proof.
  unfold version_in. destruct v as [x|]; [rewrite one_of_strs_iff|]; split.
  - eauto.
  - intros [y [Q H]]. now injection Q as <-.
  - discriminate.
  - intros [y [Q H]]. discriminate Q.
Qed.
Lemma among_iff name l : among name l = true <-> is_header name l.
Proof. unfold among, is_header. rewrite existsb_exists. split; intros [k [I H]]; exists k; (split; [exact I|]); now apply ci_eq_name. Qed.
Lemma marked_iff f name : flag_of f name = true <-> marked f name.
Proof. apply flag_of_spec. Qed.
Lemma excluded_iff f name : says_no (header_flag f name) = true <-> excluded f name.
Proof.
  unfold header_flag, excluded. setoid_rewrite known_as_iff. destruct (header_of name) as [i|]; split.
  - intro H. exists i. split; [reflexivity|]. destruct (f i) as [[]|]; try discriminate H. reflexivity.
  - intros [k [Q H]]. injection Q as <-. now rewrite H.
  - discriminate.
  - intros [k [Q H]]. discriminate Q.
Qed.
Lemma unknown_iff name : header_of name = None <-> forall i, ~ known_as i name.
Proof. setoid_rewrite known_as_iff. destruct (header_of name) as [i|]; split; intro H; try congruence; try discriminate; try (destruct (H i eq_refl)). Qed.
Lemma starts_iff x p : ci_startswith x p = true <-> starts x p.
Proof. apply C51_prefix. Qed.
Lemma ends_iff x p : ci_endswith x p = true <-> ends x p.
Proof. apply C51_prefix. Qed.

(** Keys of tables are distinct, so that the first entry is the only one. *)
Section Find.
Context {A : Type}.
Variable key : A -> str.
Variable same : str -> str -> bool.
Fixpoint find_in (t : list A) (x : str) : option A := match t with [] => None | i :: t' => if same (key i) x then Some i else find_in t' x end.
Hypothesis trans : forall a b c, same a c = true -> same b c = true -> same a b = true.
Fixpoint apart (t : list A) : bool := match t with [] => true | i :: t' => negb (existsb (fun k => same (key i) (key k)) t') && apart t' end.
Lemma find_in_iff t x i : apart t = true -> (find_in t x = Some i <-> In i t /\ same (key i) x = true).
Proof.
  induction t as [|k t IH]; cbn [find_in apart].
  - intros _. split; [discriminate|intros [[] _]].
  - intro H. apply andb_true_iff in H. destruct H as [H1 H2]. specialize (IH H2). destruct (same (key k) x) eqn:Q.
    + split; [intro R; injection R as <-; split; [now left|exact Q]|]. intros [[->|I] S]; [reflexivity|]. exfalso. apply negb_true_iff in H1. rewrite <- not_true_iff_false in H1.
      apply H1. apply existsb_exists. exists i. split; [exact I|]. eapply trans; eassumption.
    + rewrite IH. split; [intros [I S]; split; [now right|exact S]|]. intros [[->|I] S]; [congruence|tauto].
Qed.
End Find.
Lemma ci_trans a b c : ci_eq a c = true -> ci_eq b c = true -> ci_eq a b = true.
Proof. unfold ci_eq. rewrite !str_eqb_eq. congruence. Qed.
Lemma str_trans a b c : str_eqb a c = true -> str_eqb b c = true -> str_eqb a b = true.
Proof. rewrite !str_eqb_eq. congruence. Qed.
Lemma methods_apart : apart mk_key str_eqb method_table = true.
Proof. vm_compute. reflexivity. Qed.
Lemma media_apart : apart tk_key ci_eq media_table = true.
Proof. vm_compute. reflexivity. Qed.
Lemma directives_apart : apart ak_key ci_eq cache_directive_table = true.
Proof. vm_compute. reflexivity. Qed.
Lemma find_method_iff x i : find_method method_table x = Some i <-> In i method_table /\ mk_key i = x.
Proof.
  assert (Q : find_method method_table x = find_in mk_key str_eqb method_table x) by (induction method_table as [|k t IH]; cbn [find_method find_in]; [reflexivity|now rewrite IH]).
  rewrite Q, (find_in_iff str_trans _ _ methods_apart), str_eqb_eq. tauto.
Qed.
Lemma find_media_iff x i : find_media media_table x = Some i <-> In i media_table /\ P_Header.same_name (tk_key i) x.
Proof.
  assert (Q : find_media media_table x = find_in tk_key ci_eq media_table x) by (induction media_table as [|k t IH]; cbn [find_media find_in]; [reflexivity|now rewrite IH]).
  rewrite Q, (find_in_iff ci_trans _ _ media_apart). unfold ci_eq. rewrite str_eqb_eq, same_name_lower. tauto.
Qed.
Lemma find_directive_iff x i : find_arg true cache_directive_table x = Some i <-> In i cache_directive_table /\ P_Header.same_name (ak_key i) x.
Proof.
  assert (Q : find_arg true cache_directive_table x = find_in ak_key ci_eq cache_directive_table x).
  { induction cache_directive_table as [|k t IH]; cbn [find_arg find_in]; [reflexivity|]. rewrite IH. reflexivity. }
  rewrite Q, (find_in_iff ci_trans _ _ directives_apart). unfold ci_eq. rewrite str_eqb_eq, same_name_lower. tauto.
Qed.
Definition bool_is (o : option bool) (b : bool) : bool := match o with Some c => Bool.eqb b c | None => false end.
Lemma says_no_is o : says_no o = bool_is o false.
Proof. now destruct o as [[]|]. Qed.
Lemma says_yes_is o : says_yes o = bool_is o true.
Proof. now destruct o as [[]|]. Qed.
Lemma bool_is_iff o b : bool_is o b = true <-> o = Some b.
Proof. destruct o as [[]|], b; cbn; split; congruence. Qed.
Lemma method_iff f x b : bool_is (method_flag f x) b = true <-> method_says f x b.
Proof.
  rewrite bool_is_iff. unfold method_flag, method_says. destruct (find_method method_table x) as [i|] eqn:F.
  - apply find_method_iff in F. split; [intro H; exists i; tauto|]. intros [k [I [K H]]]. assert (Q : find_method method_table x = Some k) by (apply find_method_iff; tauto).
    assert (R : find_method method_table x = Some i) by now apply find_method_iff. congruence.
  - split; [discriminate|]. intros [k [I [K H]]]. assert (Q : find_method method_table x = Some k) by (apply find_method_iff; tauto). congruence.
Qed.
Lemma is_method_iff x : is_method x = true <-> exists i, In i method_table /\ mk_key i = x.
Proof.
  unfold is_method. destruct (find_method method_table x) as [i|] eqn:F.
  - apply find_method_iff in F. split; [eauto|reflexivity].
  - split; [discriminate|]. intros [k K]. apply find_method_iff in K. congruence.
Qed.
Lemma media_iff f x : media_is f x = true <-> media_says (fun i => f i = true) x.
Proof.
  unfold media_is, media_says. destruct (find_media media_table x) as [i|] eqn:F.
  - pose proof F as G. apply find_media_iff in G. split; [intro H; exists i; tauto|]. intros [k [I [K H]]].
    assert (Q : find_media media_table x = Some k) by (apply find_media_iff; tauto). congruence.
  - split; [discriminate|]. intros [k [I [K H]]]. assert (Q : find_media media_table x = Some k) by (apply find_media_iff; tauto). congruence.
Qed.
Lemma patch_iff x : says_no (media_patch x) = true <-> patch_no x.
Proof.
  rewrite says_no_is, bool_is_iff. unfold media_patch, patch_no, media_says. destruct (find_media media_table x) as [i|] eqn:F.
  - pose proof F as G. apply find_media_iff in G. split; [intro H; exists i; tauto|]. intros [k [I [K H]]].
    assert (Q : find_media media_table x = Some k) by (apply find_media_iff; tauto). congruence.
  - split; [discriminate|]. intros [k [I [K H]]]. assert (Q : find_media media_table x = Some k) by (apply find_media_iff; tauto). congruence.
Qed.
Lemma directive_iff f x b : bool_is (directive_flag f x) b = true <-> directive_says f x b.
Proof.
  rewrite bool_is_iff. unfold directive_flag, directive_says. destruct (find_arg true cache_directive_table x) as [i|] eqn:F.
  - pose proof F as G. apply find_directive_iff in G. split; [intro H; exists i; tauto|]. intros [k [I [K H]]].
    assert (Q : find_arg true cache_directive_table x = Some k) by (apply find_directive_iff; tauto). congruence.
  - split; [discriminate|]. intros [k [I [K H]]]. assert (Q : find_arg true cache_directive_table x = Some k) by (apply find_directive_iff; tauto). congruence.
Qed.
Lemma statuses_apart : forallb (fun a => Nat.eqb (List.length (filter (fun b => Z.eqb (fst a) (fst b)) status_table)) 1) status_table = true.
Proof. vm_compute. reflexivity. Qed.
Lemma find_status_in t st c : find_status t st = Some c -> In (st, c) t.
Proof. induction t as [|[k d] t IH]; cbn [find_status]; [discriminate|]. destruct (Z.eqb k st) eqn:Q; [|right; auto]. intro H. injection H as <-. apply Z.eqb_eq in Q. subst k. now left. Qed.
Lemma find_status_some t st c : In (st, c) t -> exists d, find_status t st = Some d.
Proof. induction t as [|[k d] t IH]; cbn [find_status]; [intros []|]. destruct (Z.eqb k st) eqn:Q; [eauto|]. intros [H|H]; [injection H as -> ->; rewrite Z.eqb_refl in Q; discriminate Q|auto]. Qed.
Lemma two_in {A} (f : A -> bool) l x y : In x l -> In y l -> f x = true -> f y = true -> x <> y -> 1 < List.length (filter f l).
Proof.
  intros I J X Y N. assert (Ix : In x (filter f l)) by now apply filter_In. assert (Iy : In y (filter f l)) by now apply filter_In.
  destruct (filter f l) as [|a [|b r]]; [destruct Ix| |cbn [List.length]; lia]. destruct Ix as [->|[]], Iy as [->|[]]. now destruct N.
Qed.
Lemma status_iff st c : status_cacheable st = Some c <-> status_says st c.
Proof.
  unfold status_cacheable, status_says. split; [apply find_status_in|]. intro I. destruct (find_status_some I) as [d D]. rewrite D. f_equal. apply find_status_in in D.
  assert (CD : {d = c} + {d <> c}) by decide equality. destruct CD as [Q|Q]; [exact Q|]. exfalso. pose proof (proj1 (forallb_forall _ _) statuses_apart _ I) as U. apply Nat.eqb_eq in U.
  assert (L : 1 < List.length (filter (fun b => Z.eqb (fst (st, c)) (fst b)) status_table)); [|lia].
  eapply two_in; [exact I|exact D|apply Z.eqb_refl|apply Z.eqb_refl|congruence].
Qed.
Lemma insecure_iff scheme : says_no (scheme_tls scheme) = true <-> insecure scheme.
Proof.
  unfold insecure, scheme_tls. destruct scheme as [x|]; [|split; discriminate]. destruct (str_eqb x (s "http")) eqn:H.
  - apply str_eqb_eq in H. subst x. split; reflexivity.
  - assert (N : x <> s "http") by (intro Q; apply str_eqb_eq in Q; congruence). split; [destruct (str_eqb x (s "https")); discriminate|]. intro Q. exfalso. apply N. congruence.
Qed.
Lemma secure_iff scheme : says_yes (scheme_tls scheme) = true <-> secure scheme.
Proof.
  unfold secure, scheme_tls. destruct scheme as [x|]; [|split; discriminate]. destruct (str_eqb x (s "http")) eqn:H.
  - apply str_eqb_eq in H. subst x. split; intro Q; [discriminate Q|]. exfalso. assert (R : s "http" = s "https") by congruence. vm_compute in R. discriminate R.
  - destruct (str_eqb x (s "https")) eqn:K.
    + apply str_eqb_eq in K. subst x. split; reflexivity.
    + split; [discriminate|]. intro Q. exfalso. assert (R : x = s "https") by congruence. apply str_eqb_eq in R. congruence.
Qed.
Lemma text_is_iff v x : match str_like v with Some (Plain x) | Some (CI x) => Some x | None => None end = Some x <-> text_is v x.
Proof.
  unfold text_is. destruct (str_like v) as [[y|y]|]; split; intro H; try discriminate H.
  - injection H as ->. now left.
  - destruct H as [H|H]; [now injection H as ->|discriminate H].
  - injection H as ->. now right.
  - destruct H as [H|H]; [discriminate H|now injection H as ->].
  - destruct H as [H|H]; discriminate H.
Qed.
Lemma picked_iff {A} (f : A -> bool) (P : A -> Prop) l r : (forall x, f x = true <-> P x) -> (r = filter f l <-> picked P l r).
Proof.
  intro H. split.
  - intros ->. induction l as [|x l IH]; cbn [filter]; [constructor|]. destruct (f x) eqn:Q; constructor; auto; [now apply H|]. intro K. apply H in K. congruence.
  - induction 1 as [|x l r K _ IH|x l r K _ IH]; cbn [filter]; [reflexivity| |].
    + apply H in K. now rewrite K, IH.
    + destruct (f x) eqn:Q; [apply H in Q; tauto|exact IH].
Qed.

(** ** Headers *)

Lemma header_value_iff E m k u : header_value E m k u <-> u = v_value (got_view (e_read E) (m_entries m) (s k)).
Proof.
  split.
  - intros [v [V <-]]. f_equal. eapply view_unique; [exact V|apply got_is].
  - intros ->. exists (got_view (e_read E) (m_entries m) (s k)). split; [apply got_is|reflexivity].
Qed.
Lemma header_value_unique E m k u u' : header_value E m k u -> header_value E m k u' -> u = u'.
Proof. rewrite !header_value_iff. congruence. Qed.
Lemma elements_unique v l l' : elements v l -> elements v l' -> l = l'.
Proof.
  assert (T : forall v x y, text_is v x -> text_is v y -> x = y) by (intros u x y A B; apply text_is_iff in A; apply text_is_iff in B; congruence).
  assert (N : forall l x, ~ text_is (VList l) x) by (intros u x [H|H]; discriminate H).
  intros [l0|u x X] H; inversion H as [l1|u1 y Y]; subst; try reflexivity; try (exfalso; eapply N; eassumption). now rewrite (T _ _ _ X Y).
Qed.
Lemma listed_unique E m k l l' : listed E m k l -> listed E m k l' -> l = l'.
Proof. intros [v [V L]] [v' [V' L']]. rewrite (header_value_unique V' V) in L'. eapply elements_unique; eassumption. Qed.
Lemma item_iff E m k l x : listed E m k l -> (item E m k x <-> In x l).
Proof. intro L. split; [intros [l' [L' I]]; now rewrite (listed_unique L L')|intro I; now exists l]. Qed.
Lemma item_readable E m k x : item E m k x -> readable x.
Proof.
  intros [l [[v [_ L]] I]]. destruct L as [l|v t T]; [apply filter_In in I; now apply readable_okay|]. apply in_map_iff in I. destruct I as [c [<- _]]. now apply readable_okay.
Qed.
Lemma looked_up_unique key l v v' : looked_up key l v -> looked_up key l v' -> v = v'.
Proof. intro H. revert v'. induction H; intros v' K; inversion K; subst; try congruence; try reflexivity; try (exfalso; congruence); auto. Qed.
Lemma first_directive_iff key l v : v <> VBad -> first_directive (s key) l = v -> looked_up key l v.
Proof.
  intros N. revert v N. induction l as [|d l IH]; intros v N; cbn [first_directive].
  - intros <-. constructor.
  - destruct (unpack2 d) as [[n r]|] eqn:U; [|intros <-; congruence]. destruct (ci_eq (text_of n) (s key)) eqn:Q.
    + intros <-. apply found with n; [exact U|]. unfold ci_eq in Q. apply str_eqb_eq in Q. now apply same_name_lower.
    + intro H. eapply look_further; [exact U| |exact (IH v N H)]. rewrite same_name_lower, <- str_eqb_eq. unfold ci_eq in Q. congruence.
Qed.
Lemma directive_unique E m k key v v' : directive E m k key v -> directive E m k key v' -> v = v'.
Proof. intros [l [L K]] [l' [L' K']]. rewrite (listed_unique L' L) in K'. eapply looked_up_unique; eassumption. Qed.
Lemma some_unique {A} (o : option A) : forall v v', o = Some v -> o = Some v' -> v = v'.
Proof. congruence. Qed.
Lemma part_unique x v : forall u u', part x v u -> part x v u' -> u = u'.
Proof. apply some_unique. Qed.
Lemma params_unique v : forall u u', params v u -> params v u' -> u = u'.
Proof. apply some_unique. Qed.
Lemma has_part_unique E m k x : forall u u', has_part E m k x u -> has_part E m k x u' -> u = u'.
Proof. intros u u' [v [V P]] [v' [V' P']]. rewrite (header_value_unique V' V) in P'. eapply part_unique; eassumption. Qed.
Lemma got_unique {A} (o : result A) : forall v v', o = Got v -> o = Got v' -> v = v'.
Proof. congruence. Qed.

Section Base.
Variable E : env.
Variable W : event -> Prop.
Hypothesis http : parses_http (e_read E).
Notation returns := (returns E W).
Notation tests := (tests E W).
Notation reports := (reports E W).
Notation does := (does E W).

Lemma does_view j k : returns (view j k) (fun v => v = got_view (e_read E) (m_entries (j_msg j)) k).
Proof.
  split.
  - intros e I. left. pose proof (@view_says E aside j k []) as H. unfold emits in H. rewrite Forall_forall in H. apply H; [|exact I]. apply hears_all; [exact http| |].
    + intros id ctx [keys [K _]]. exists keys. exact K.
    + intros id ctx [keys [[] _]].
  - intros v V. split; [|intros e []]. apply view_got in V. eapply view_unique; [exact V|apply got_is].
Qed.
Lemma does_value j k : returns (value j k) (header_value E (j_msg j) k).
Proof. unfold value. eapply returns_bind; [apply does_view|]. intros v ->. apply does_ret. now apply header_value_iff. Qed.
Lemma got_has m k : is_present (got_view (e_read E) (m_entries m) (s k)) = true <-> has m k.
Proof.
  destruct (C33_entries (got_is (e_read E) (m_entries m) (s k))) as [us [c [[U _] [_ [N O]]]]]. unfold is_present.
  assert (H : has m k <-> us <> []).
  { split; [intros [p [e H]] ->; apply U in H; destruct H|]. destruct us as [|[p e] us]; [congruence|]. intros _. exists p, e. apply U. now left. }
  rewrite H. assert (D : shows_one c \/ ~ shows_one c) by (unfold shows_one; destruct c as [| | |[]]; first [left; auto; fail|right; intros [Q|Q]; discriminate Q]).
  destruct D as [D|D].
  - destruct (O D) as [[-> ->]|[us' [x [-> ->]]]]; [split; congruence|]. split; [intros _ Q; destruct us'; discriminate Q|reflexivity].
  - rewrite (N D). destruct us; split; congruence.
Qed.
Lemma tests_present j k : tests (present j k) (has (j_msg j) k).
Proof. unfold present. eapply returns_bind; [apply does_view|]. intros v ->. apply does_ret. apply got_has. Qed.
Lemma tests_absent j k : tests (absent j k) (lacks (j_msg j) k).
Proof. apply tests_not, tests_present. Qed.
Lemma tests_okay j k : tests (okayM j k) (okay E (j_msg j) k).
Proof.
  unfold okayM. eapply returns_bind; [apply does_view|]. intros v ->. apply does_ret. unfold is_okay, okay. setoid_rewrite header_value_iff. setoid_rewrite readable_okay.
  split; [eauto|intros [v [-> H]]; exact H].
Qed.
Lemma tests_truth j k : tests (truth j k) (holds E (j_msg j) k).
Proof.
  unfold truth, holds. eapply tests_get; [apply does_value|apply header_value_unique|]. intros v _. apply does_ret. reflexivity.
Qed.
Lemma tests_equal j k c : readable c -> tests (is_equal j k c) (equals E (j_msg j) k c).
Proof.
  intro C. apply readable_okay in C. unfold is_equal. eapply returns_bind; [apply does_view|]. intros v ->. apply does_ret. unfold is_okay, equals.
  setoid_rewrite header_value_iff. setoid_rewrite readable_okay. rewrite C, andb_true_r, andb_true_iff. split; [intro H; eauto|intros [v [-> H]]; exact H].
Qed.
Lemma tests_unequal j k c : readable c -> tests (is_unequal j k c) (differs E (j_msg j) k c).
Proof.
  intro C. apply readable_okay in C. unfold is_unequal. eapply returns_bind; [apply does_view|]. intros v ->. apply does_ret. unfold is_okay, differs.
  setoid_rewrite header_value_iff. setoid_rewrite readable_okay. rewrite C, andb_true_r, andb_true_iff, negb_true_iff. split; [intro H; eauto|intros [v [-> H]]; exact H].
Qed.
Lemma tests_compare test j k c (P : Datatypes.comparison -> Prop) : (forall o, test o = true <-> P o) -> tests (compare test j k c) (ordered E (j_msg j) k P c).
Proof.
  intro T. unfold compare. eapply returns_bind; [apply does_view|]. intros v ->. unfold is_okay. set (g := v_value _).
  assert (H : ordered E (j_msg j) k P c <-> exists o, okay_value g = true /\ okay_value c = true /\ order g c = Some o /\ P o).
  { unfold ordered. split.
    - intros [v [o [V [R [R' H]]]]]. exists o. apply header_value_iff in V. apply readable_okay in R. apply readable_okay in R'. subst v. auto.
    - intros [o [R [R' H]]]. exists g, o. split; [now apply header_value_iff|]. split; [now apply readable_okay|]. split; [now apply readable_okay|exact H]. }
  apply tests_iff with (exists o, okay_value g = true /\ okay_value c = true /\ order g c = Some o /\ P o); [|now symmetry].
  destruct (okay_value g) eqn:O; [destruct (okay_value c) eqn:C; cbn [andb]|cbn [andb]].
  - eapply returns_bind; [apply does_some|]. intros o Q. apply does_ret. rewrite T. split; [intro K0; exists o; auto|]. intros [o' X]. destruct X as (X1 & X2 & X3 & X4). congruence.
  - apply does_ret. split; [discriminate|]. intros [o [_ [K0 _]]]. discriminate K0.
  - apply does_ret. split; [discriminate|]. intros [o [K0 _]]. discriminate K0.
Qed.
Lemma tests_gt j k c : tests (compare is_gt j k c) (above E (j_msg j) k c).
Proof. apply tests_compare. intros []; split; cbn; congruence. Qed.
Lemma tests_lt j k c : tests (compare is_lt j k c) (below E (j_msg j) k c).
Proof. apply tests_compare. intros []; split; cbn; congruence. Qed.
Lemma tests_ge j k c : tests (compare is_ge j k c) (not_below E (j_msg j) k c).
Proof. apply tests_compare. intros []; split; cbn; congruence. Qed.
Lemma does_elements k (v : val) : is_single (s k) = false -> returns (l <- some_of match v with
               | VList l => Some l
               | _ => match str_like v with Some (Plain x) | Some (CI x) => Some (letters_of x) | None => None end
               end ;; ret (if is_single (s k) then l else filter okay_value l)) (elements v).
Proof.
  intros ->. eapply returns_bind; [apply does_some|]. intros l L. apply does_ret.
  assert (F : forall x, filter okay_value (letters_of x) = letters_of x) by (induction x as [|c x IH]; [reflexivity|]; cbn [letters_of map filter okay_value]; f_equal; exact IH).
  assert (T : forall v, match str_like v with Some (Plain x) | Some (CI x) => Some (letters_of x) | None => None end = Some l -> elements v (filter okay_value l)).
  { intros u H. destruct (str_like u) as [[x|x]|] eqn:S; try discriminate H; injection H as <-; rewrite F; apply of_text; [now left|now right]. }
  destruct v; try (apply T; exact L). injection L as <-. constructor.
Qed.
Lemma does_items j k : is_single (s k) = false -> returns (items j k) (listed E (j_msg j) k).
Proof.
  intro S. unfold items. eapply returns_bind; [apply does_value|]. intros v V. eapply does_weak; [exact (does_elements v S)|]. intros l L. now exists v.
Qed.
Lemma tests_has_item j k c : is_single (s k) = false -> tests (has_item j k c) (mentions E (j_msg j) k c).
Proof.
  intro S. unfold has_item, mentions. eapply returns_bind; [exact (does_items j S)|]. intros l L. apply does_ret. rewrite existsb_exists. setoid_rewrite (fun x => item_iff x L). reflexivity.
Qed.
Lemma does_each_item j k f (D : val -> event -> Prop) : is_single (s k) = false -> (forall x, item E (j_msg j) k x -> reports (f x) (D x)) ->
  reports (l <- items j k ;; for_each l f) (fun e => exists x, item E (j_msg j) k x /\ D x e).
Proof.
  intros S H. eapply does_to; [eapply does_get; [exact (does_items j S)|apply listed_unique|]|].
  - intros l L. apply does_each with (D := D). intros x X. apply H. now exists l.
  - intro e. cbn beta. split; [intros [l [L [x [X d]]]]; exists x; split; [now exists l|exact d]|]. intros [x [[l [L X]] d]]. eauto.
Qed.
Lemma tests_any_item j k f (P : val -> Prop) : is_single (s k) = false -> (forall x, item E (j_msg j) k x -> tests (f x) (P x)) ->
  tests (l <- items j k ;; anyM f l) (exists x, item E (j_msg j) k x /\ P x).
Proof.
  intros S H. eapply tests_iff; [eapply tests_get; [exact (does_items j S)|apply listed_unique|]|].
  - intros l L. apply tests_any with (P := P). intros x X. apply H. now exists l.
  - cbn beta. split; [intros [l [L [x [X d]]]]; exists x; split; [now exists l|exact d]|]. intros [x [[l [L X]] d]]. eauto.
Qed.
Lemma does_looked key l : returns match first_directive (s key) l with VBad => raise Mistake | v => ret v end (looked_up key l).
Proof.
  destruct (first_directive (s key) l) eqn:Q; try apply does_raise; apply does_ret; (apply first_directive_iff; [discriminate|exact Q]).
Qed.
Lemma does_directive j k key : is_single (s k) = false -> returns (directive_of j k key) (directive E (j_msg j) k key).
Proof.
  intro S. unfold directive_of. eapply returns_bind; [exact (does_items j S)|]. intros l L. eapply does_weak; [apply does_looked|]. intros v V. now exists l.
Qed.
Lemma tests_directive j k key (f : val -> bool) (P : val -> Prop) : is_single (s k) = false -> (forall v, f v = true <-> P v) ->
  tests (v <- directive_of j k key ;; ret (f v)) (exists v, directive E (j_msg j) k key v /\ P v).
Proof. intros S H. eapply tests_get; [exact (does_directive j key S)|apply directive_unique|]. intros v _. apply does_ret. apply H. Qed.
Lemma does_field x v : returns (field x v) (part x v).
Proof. apply does_some. Qed.
Lemma does_attr j k x : returns (attr_of j k x) (has_part E (j_msg j) k x).
Proof. unfold attr_of. eapply returns_bind; [apply does_value|]. intros v V. eapply does_weak; [apply does_field|]. intros u U. now exists v. Qed.
Lemma does_dict v : returns (dict v) (params v).
Proof. apply does_some. Qed.
Lemma does_dict_get v key default : returns (dict_get v key default) (fun u => exists d, params v d /\ Structure.get veq d key default = Some u).
Proof. unfold dict_get. eapply returns_bind; [apply does_dict|]. intros d D. eapply does_weak; [apply does_some|]. intros u U. eauto. Qed.
Lemma tests_dict_has v key : tests (dict_has v key) (exists d, params v d /\ contains veq d key = true).
Proof. unfold dict_has. eapply tests_get; [apply does_dict|apply params_unique|]. intros d _. apply does_ret. reflexivity. Qed.

(** ** Other texts *)

Lemma latin1_iff t : latin1 t = true <-> forall c, In c t -> (c < 256)%N.
Proof. unfold latin1. rewrite forallb_forall. setoid_rewrite N.ltb_lt. reflexivity. Qed.
Lemma parsed_or x t : (exists v cs, (if latin1 t then e_read E x t else None) = Some (v, cs) /\ parses_as E x t v) \/
  ((if latin1 t then e_read E x t else None) = None /\ not_parsed E x t).
Proof.
  unfold not_parsed, parses_as. setoid_rewrite <- latin1_iff. destruct (latin1 t); [|right; split; [reflexivity|intros v [H _]; discriminate H]].
  destruct (e_read E x t) as [[v cs]|]; [left; eauto 6|]. right. split; [reflexivity|]. intros v [_ [cs H]]. discriminate H.
Qed.
Lemma parses_as_unique x t v v' : parses_as E x t v -> parses_as E x t v' -> v = v'.
Proof. intros [_ [cs H]] [_ [cs' H']]. congruence. Qed.
Lemma does_parse j x text fail extra : silent x = true -> 
  does (parse_text j x text fail extra) (fun e => not_parsed E x text /\ e = Said (j_who j) fail ((s "error", CError) :: extra))
    (fun v => parses_as E x text v \/ (not_parsed E x text /\ v = VUnavailable (VBytes text))).
Proof.
  intro S. unfold parse_text. destruct (parsed_or x text) as [[v [cs [Q P]]]|[Q P]].
  - eapply does_to; [eapply does_let; [eapply does_weak; [apply does_ask|intros r ->; exact Q]|]|].
    + cbn beta. assert (C : cs = []) by (destruct (latin1 text); [|discriminate Q]; eapply silent_reads; eassumption). subst cs. cbn [for_each].
      eapply does_then with (D := nothing) (D' := nothing); [apply does_ret; exact I|apply does_ret; now left].
    + intro e. unfold nothing. split; [tauto|]. intros [N _]. destruct (N v P).
  - eapply does_to; [eapply does_let; [eapply does_weak; [apply does_ask|intros r ->; exact Q]|]|].
    + cbn beta. eapply does_then with (D' := nothing); [apply does_say|apply does_ret; right; split; [exact P|reflexivity]].
    + intro e. unfold nothing. tauto.
Qed.
End Base.

(** ** Tables *)

Lemma due_app t t' e : due (t ++ t') e <-> due t e \/ due t' e.
Proof. induction t as [|r t IH]; cbn [app due]; [tauto|]. rewrite IH. tauto. Qed.
Lemma due_concat ts e : due (List.concat ts) e <-> exists t, In t ts /\ due t e.
Proof.
  induction ts as [|t ts IH]; cbn [List.concat]; [split; [intros []|intros [t [[] _]]]|]. rewrite due_app, IH. split.
  - intros [H|[t' [I H]]]; [exists t|exists t']; split; auto; [now left|now right].
  - intros [t' [[<-|I] H]]; eauto.
Qed.
Lemma due_in t e : due t e <-> exists r, In r t /\ due_by r e.
Proof.
  induction t as [|r t IH]; cbn [due]; [split; [intros []|intros [r [[] _]]]|]. rewrite IH. split.
  - intros [H|[r' [I H]]]; [exists r|exists r']; split; auto; [now left|now right].
  - intros [r' [[<-|I] H]]; eauto.
Qed.
(** Checks one after another, each with its rules. *)
Definition follows (E : env) (W : event -> Prop) (m : M unit) (t : list rule) : Prop := reports E W m (due t).
Lemma follows_seq E W l ts : Forall2 (follows E W) l ts -> follows E W (seq l) (List.concat ts).
Proof.
  intro F. apply does_seq with (ts := map due ts).
  - induction F as [|m t l ts H F IH]; cbn [map]; constructor; assumption.
  - intro e. rewrite due_concat. split.
    + intros [t [I H]]. exists (due t). split; [now apply in_map|exact H].
    + intros [D [I H]]. apply in_map_iff in I. destruct I as [t [<- I]]. eauto.
Qed.

(** ** Tactics *)

Lemma version_iff m l : version_in (m_version m) l = true <-> version m l.
Proof. apply version_in_iff. Qed.
Lemma is_none_iff v : is_none v = true <-> v = VNone.
Proof. destruct v; cbn; split; congruence. Qed.
Lemma negb_iff b P : (b = true <-> P) -> (negb b = true <-> ~ P).
Proof. intros H. rewrite negb_true_iff. destruct b; split; intro K; [discriminate K|exfalso; apply K, H; reflexivity|intro p; apply H in p; discriminate p|reflexivity]. Qed.
Lemma and_iff a b P Q : (a = true <-> P) -> (b = true <-> Q) -> (a && b = true <-> P /\ Q).
Proof. rewrite andb_true_iff. tauto. Qed.
Lemma or_iff a b P Q : (a = true <-> P) -> (b = true <-> Q) -> (a || b = true <-> P \/ Q).
Proof. rewrite orb_true_iff. tauto. Qed.
Lemma false_iff b : negb b = true <-> b = false.
Proof. apply negb_true_iff. Qed.
Lemma empty_iff v : is_empty v = true <-> v = VBytes [].
Proof. unfold is_empty. destruct v as [| [|] | | | | | | | | | |]; split; congruence. Qed.

Lemma versioned_iff v : is_versioned v = true <-> an "Versioned" v.
Proof.
  unfold is_versioned, an. destruct v; try (split; [discriminate|intros [? H]; discriminate H]). rewrite str_eqb_eq. split; [intros ->; eauto|intros [l H]; now injection H].
Qed.
Lemma tag_iff v : is_tag v = true <-> an "EntityTag" v.
Proof.
  unfold is_tag, an. destruct v; try (split; [discriminate|intros [? H]; discriminate H]). rewrite str_eqb_eq. split; [intros ->; eauto|intros [l H]; now injection H].
Qed.
Lemma is_str_iff v : is_str v = true <-> stringy v.
Proof.
  unfold is_str, stringy. destruct (str_like v) as [[x|x]|] eqn:S; unfold text_is; rewrite S; split; try reflexivity; try discriminate; eauto.
  intros [x [H|H]]; discriminate H.
Qed.
Lemma library_iff x : is_library x = true <-> In x library_table.
Proof. unfold is_library. rewrite existsb_exists. split; [intros [k [I H]]; apply str_eqb_eq in H; now subst|]. intro I. exists x. split; [exact I|now apply str_eqb_eq]. Qed.
Lemma apart_ones x a b : existsb (fun x => existsb (fun y => str_eqb (s x) (s y)) b) a = false -> is_one x a -> is_one x b -> False.
Proof.
  intros H [k [I ->]] [l [J Q]]. assert (K : existsb (fun x => existsb (fun y => str_eqb (s x) (s y)) b) a = true); [|congruence].
  apply existsb_exists. exists k. split; [exact I|]. apply existsb_exists. exists l. split; [exact J|]. apply str_eqb_eq. exact Q.
Qed.
Lemma apart_names name a b : existsb (fun x => existsb (fun y => ci_eq (s x) (s y)) b) a = false -> is_header name a -> is_header name b -> False.
Proof.
  intros H [x [I X]] [y [J Y]]. assert (K : existsb (fun x => existsb (fun y => ci_eq (s x) (s y)) b) a = true); [|congruence].
  apply existsb_exists. exists x. split; [exact I|]. apply existsb_exists. exists y. split; [exact J|].
  unfold ci_eq. apply str_eqb_eq. apply same_name_lower in X. apply same_name_lower in Y. congruence.
Qed.
(** The meaning of a truth value.  Facts about other tests are added where they
    are proved. *)
Ltac known_meaning := fail.
Ltac meaning :=
  lazymatch goal with
  | |- negb (veq _ _) = true <-> _ => apply false_iff
  | |- negb _ = true <-> _ => apply negb_iff; meaning
  | |- (_ && _) = true <-> _ => apply and_iff; meaning
  | |- (_ || _) = true <-> _ => apply or_iff; meaning
  | |- version_in (m_version _) _ = true <-> _ => apply version_iff
  | |- one_of_strs _ _ = true <-> _ => apply one_of_strs_iff
  | |- among _ _ = true <-> _ => apply among_iff
  | |- method_in _ _ = true <-> _ => apply one_of_strs_iff
  | |- by_method _ _ = true <-> _ => apply one_of_strs_iff
  | |- is_versioned _ = true <-> _ => apply versioned_iff
  | |- is_tag _ = true <-> _ => apply tag_iff
  | |- is_str _ = true <-> _ => apply is_str_iff
  | |- is_library _ = true <-> _ => apply library_iff
  | |- existsb _ _ = true <-> _ => apply existsb_exists
  | |- flag_of _ _ = true <-> _ => apply marked_iff
  | |- says_no (header_flag _ _) = true <-> _ => apply excluded_iff
  | |- says_no (method_flag _ _) = true <-> _ => rewrite says_no_is; apply method_iff
  | |- says_yes (method_flag _ _) = true <-> _ => rewrite says_yes_is; apply method_iff
  | |- says_no (directive_flag _ _) = true <-> _ => rewrite says_no_is; apply directive_iff
  | |- says_yes (directive_flag _ _) = true <-> _ => rewrite says_yes_is; apply directive_iff
  | |- says_no (scheme_tls _) = true <-> _ => apply insecure_iff
  | |- says_yes (scheme_tls _) = true <-> _ => apply secure_iff
  | |- says_no (media_patch _) = true <-> _ => apply patch_iff
  | |- media_is _ _ = true <-> _ => apply media_iff
  | |- is_method _ = true <-> _ => apply is_method_iff
  | |- is_none _ = true <-> _ => apply is_none_iff
  | |- is_empty _ = true <-> _ => apply empty_iff
  | |- okay_value _ = true <-> _ => symmetry; apply readable_okay
  | |- str_eqb _ _ = true <-> _ => apply str_eqb_eq
  | |- Z.eqb _ _ = true <-> _ => apply Z.eqb_eq
  | |- _ = true <-> _ => first [known_meaning|apply iff_refl]
  end.
Ltac const_okay := apply readable_okay; reflexivity.
(** Facts about derived properties are added where they are proved. *)
Ltac known_test := fail.
Ltac known_value := fail.
(** Of a test. *)
Ltac test :=
  lazymatch goal with
  | |- tests _ _ (andM _ _) _ => eapply tests_and; [test|let H := fresh "T" in intro H; test]
  | |- tests _ _ (orM _ _) _ => eapply tests_or; [test|let H := fresh "T" in intro H; test]
  | |- tests _ _ (notM _) _ => eapply tests_not; test
  | |- tests _ _ (pure _) _ => apply tests_pure; meaning
  | |- tests _ _ (ret _) _ => apply does_ret; meaning
  | |- tests _ _ (present _ _) _ => eapply tests_present; eassumption
  | |- tests _ _ (absent _ _) _ => eapply tests_absent; eassumption
  | |- tests _ _ (okayM _ _) _ => eapply tests_okay; eassumption
  | |- tests _ _ (truth _ _) _ => eapply tests_truth; eassumption
  | |- tests _ _ (is_equal _ _ _) _ => eapply tests_equal; [eassumption|try const_okay]
  | |- tests _ _ (is_unequal _ _ _) _ => eapply tests_unequal; [eassumption|try const_okay]
  | |- tests _ _ (compare is_gt _ _ _) _ => eapply tests_gt; eassumption
  | |- tests _ _ (compare is_lt _ _ _) _ => eapply tests_lt; eassumption
  | |- tests _ _ (compare is_ge _ _ _) _ => eapply tests_ge; eassumption
  | |- tests _ _ (has_item _ _ _) _ => eapply tests_has_item; [eassumption|reflexivity]
  | |- tests _ _ (dict_has _ _) _ => eapply tests_dict_has
  | |- tests _ _ (bind (directive_of _ _ _) (fun v => ret (@?f v))) _ => eapply tests_directive; [eassumption|reflexivity|intro; meaning]
  | |- tests _ _ (bind (items _ _) (fun l => anyM _ l)) _ => eapply tests_any_item; [eassumption|reflexivity|intros ? ?; test]
  | |- tests _ _ (bind _ _) _ => first [known_test|eapply tests_get; [gets|unique|intros ? ?; cbv beta; test]]
  | |- tests _ _ _ _ => try known_test
  | |- _ => idtac
  end
with gets :=
  lazymatch goal with
  | |- returns _ _ (value _ _) _ => eapply does_value; eassumption
  | |- returns _ _ (field _ _) _ => apply does_field
  | |- returns _ _ (attr_of _ _ _) _ => eapply does_attr; eassumption
  | |- returns _ _ (directive_of _ _ _) _ => eapply does_directive; [eassumption|reflexivity]
  | |- returns _ _ (items _ _) _ => eapply does_items; [eassumption|reflexivity]
  | |- returns _ _ (dict _) _ => apply does_dict
  | |- returns _ _ (dict_get _ _ _) _ => apply does_dict_get
  | |- returns _ _ (some_of _) _ => apply does_some
  | |- returns _ _ (result_of _) _ => apply does_result
  | |- returns _ _ (ask _) _ => apply does_ask
  | |- returns _ _ _ _ => try known_value
  | |- _ => idtac
  end
with unique :=
  first [apply header_value_unique|apply listed_unique|apply part_unique|apply has_part_unique|apply directive_unique|apply params_unique|apply some_unique|apply got_unique
        |intros ? ?; congruence|idtac].
(** Of a check. *)
Ltac walk :=
  lazymatch goal with
  | |- reports _ _ (say _ _ _) _ => apply does_say
  | |- reports _ _ (ret tt) _ => apply does_ret; exact Logic.I
  | |- reports _ _ (when _ _) _ => eapply does_when; [test|let H := fresh "T" in intro H; walk]
  | |- reports _ _ (bind (items _ _) (fun l => for_each l _)) _ => eapply does_each_item; [eassumption|reflexivity|intros ? ?; walk]
  | |- reports _ _ (for_each _ _) _ => eapply does_each; intros ? ?; walk
  | |- reports _ _ (if _ then _ else _) _ => eapply does_if; [meaning|let H := fresh "T" in intro H; walk|let H := fresh "T" in intro H; walk]
  | |- reports _ _ (ifM _ _ _) _ => eapply does_ifM; [test|let H := fresh "T" in intro H; walk|let H := fresh "T" in intro H; walk]
  | |- reports _ _ (bind _ (fun _ : unit => _)) _ => eapply does_then; walk
  | |- does _ _ (bind (A := unit) _ (fun _ => _)) _ _ => eapply does_then; walk
  | |- does ?E ?W ?m ?D (fun _ => True) => change (reports E W m D); walk
  | |- reports _ _ (bind _ _) _ => eapply does_get; [gets|unique|intros ? ?; cbv beta; walk]
  | |- _ => idtac
  end.
Ltac same_parts :=
  repeat match goal with
  | H : header_value ?E ?m ?k ?a, K : header_value ?E ?m ?k ?b |- _ => tryif constr_eq a b then clear K else (pose proof (header_value_unique H K); subst; try clear K)
  | H : listed ?E ?m ?k ?a, K : listed ?E ?m ?k ?b |- _ => tryif constr_eq a b then clear K else (pose proof (listed_unique H K); subst; try clear K)
  | H : has_part ?E ?m ?k ?x ?a, K : has_part ?E ?m ?k ?x ?b |- _ => tryif constr_eq a b then clear K else (pose proof (has_part_unique H K); subst; try clear K)
  | H : part ?x ?v ?a, K : part ?x ?v ?b |- _ => tryif constr_eq a b then clear K else (pose proof (part_unique H K); subst; try clear K)
  | H : params ?v ?a, K : params ?v ?b |- _ => tryif constr_eq a b then clear K else (pose proof (params_unique H K); subst; try clear K)
  | H : directive ?E ?m ?k ?x ?a, K : directive ?E ?m ?k ?x ?b |- _ => tryif constr_eq a b then clear K else (pose proof (directive_unique H K); subst; try clear K)
  end.
(** Solve a goal by giving the components that are at hand. *)
Ltac dig :=
  lazymatch goal with
  | |- exists _, _ => eexists; dig
  | |- _ /\ _ => split; [dig|dig]
  | |- _ \/ _ => first [left; solve [dig]|right; solve [dig]]
  | |- True => exact Logic.I
  | |- False => fail
  | |- ~ is_one ?x ?b => first [assumption|match goal with H : is_one x ?a |- _ => let K := fresh in intro K; refine (@apart_ones x a b _ H K); reflexivity end]
  | |- ~ is_header ?x ?b => first [assumption|match goal with H : is_header x ?a |- _ => let K := fresh in intro K; refine (@apart_names x a b _ H K); reflexivity end]
  | |- _ => first [reflexivity|multimatch goal with H : _ |- _ => exact H end|solve [eauto 4]]
  end.
Ltac split_up :=
  repeat match goal with
  | H : False |- _ => destruct H
  | H : exists _, _ |- _ => destruct H
  | H : _ /\ _ |- _ => destruct H
  | H : _ \/ _ |- _ => destruct H
  | H : nothing _ |- _ => destruct H
  end.
Ltac table_one := split_up; subst; same_parts; try solve [dig].
Ltac open_table := intro; unfold nothing; repeat rewrite due_app; lazymatch goal with |- context [due ?t] => let h := head_of t in unfold h end;
  cbn [due app]; unfold due_by, plain, about, media_type, type_params, method_is; cbn [r_who r_id r_due].
Ltac table := open_table; cbn [j_msg j_who j_status j_request of_request of_response] in *; split; intro; table_one.
