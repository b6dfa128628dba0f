(** C80: the order of fields with different names, and the case of names. *)
From Coq Require Import ZifyBool ZifyNat ZifyN String Permutation Sorted.
From Verif Require Import Base Earley EarleySpec Parse P_Earley Grammar GrammarSem GrammarCalc GrammarVals Syntax Actions Nested Reading HttpText SyntaxVals P_Grammar P_Util P_Types Text Structure Known Tables Header HeaderProofs P_Header P_Views Values Notices ChecksBase ChecksMessage ChecksRequest ChecksResponse ChecksSays ChecksExample P_Exchange Alike AlikeViews AlikeChecks AlikeTop.
Open Scope nat_scope.
Open Scope list_scope.
Unset Strict Implicit.
Local Open Scope string_scope.
Local Open Scope list_scope.

(** ** Specification *)

(** Every field of [m] is also in [m'], at the place that [g] says: in the
    header if it was in the header and in the trailer if it was in the trailer,
    with the same value and with the same name except for case.  Nothing else
    is in [m'].  Fields with the same name are in the same order. *)
Record shuffled (g : place -> place) (m m' : entries) : Prop := {
  sh_there : forall p e, entry_at m p e -> exists e', entry_at m' (g p) e' /\ P_Header.same_name (e_name e) (e_name e') /\ e_value e = e_value e';
  sh_all : forall p' e', entry_at m' p' e' -> exists p e, entry_at m p e /\ g p = p';
  sh_side : forall p, fst (g p) = fst p;
  sh_order : forall p q e d, entry_at m p e -> entry_at m q d -> P_Header.same_name (e_name e) (e_name d) -> fst p = fst q -> snd p < snd q -> snd (g p) < snd (g q) }.
(** Messages that are equal except for that. *)
Definition shuffled_message g (m m' : msg) : Prop :=
  m_version m = m_version m' /\ m_body m = m_body m' /\ m_decoded m = m_decoded m' /\ m_unicode m = m_unicode m' /\ shuffled g (m_entries m) (m_entries m').
Definition shuffled_request g (q q' : request) : Prop :=
  q_scheme q = q_scheme q' /\ q_method q = q_method q' /\ q_target q = q_target q' /\ shuffled_message g (q_msg q) (q_msg q').
Definition shuffled_response g (p p' : response) : Prop :=
  p_status p = p_status p' /\ p_reason p = p_reason p' /\ shuffled_message g (p_msg p) (p_msg p').
(** [f] says for every message of the exchange where its fields are. *)
Definition shuffled_exchange (f : who -> place -> place) (x x' : exchange) : Prop :=
  match x_request x, x_request x' with
  | Some q, Some q' => shuffled_request (f Req) q q'
  | None, None => True
  | _, _ => False
  end /\
  List.length (x_responses x) = List.length (x_responses x') /\
  forall i p p', response_at x i p -> response_at x' i p' -> shuffled_response (f (Resp i)) p p'.

(** What a notice is about is the same: the same value, the same fields
    (wherever they are), the same header, the same headers in any order. *)
Inductive about_same (f : who -> place -> place) : carg -> carg -> Prop :=
| about_value v : about_same f (CVal v) (CVal v)
| about_entry w p : about_same f (CEntry w p) (CEntry w (f w p))
| about_entries w l : about_same f (CEntries w l) (CEntries w (map (f w) l))
| about_header w a b : P_Header.same_name a b -> about_same f (CHeader w a) (CHeader w b)
| about_headers w l k l' : Permutation l k -> Forall2 P_Header.same_name k l' -> about_same f (CHeaders w l) (CHeaders w l')
| about_error : about_same f CError CError
| about_response i : about_same f (CResponse i) (CResponse i).
Definition about_the_same f (ctx ctx' : list (str * carg)) : Prop := Forall2 (fun a b => fst a = fst b /\ about_same f (snd a) (snd b)) ctx ctx'.

(** Reading a field name succeeds or not regardless of case. *)
Definition reads_names_alike (read : symbol -> str -> option (val * list vcomplaint)) : Prop :=
  forall a b, P_Header.same_name a b -> read field_name a = None -> read field_name b = None.

(** ** Proofs *)

Lemma sorted_same {A} (R : A -> A -> Prop) : (forall x y, R x y -> R y x -> False) -> forall l l',
  StronglySorted R l -> StronglySorted R l' -> (forall x, In x l <-> In x l') -> l = l'.
Proof.
  intro AS. induction l as [|a l IH]; intros [|b l'] S S' H.
  - reflexivity.
  - destruct (proj2 (H b)). now left.
  - destruct (proj1 (H a)). now left.
  - inversion S as [ | ? ? S1 F1]; subst. inversion S' as [ | ? ? S1' F1']; subst. rewrite Forall_forall in F1, F1'.
    assert (I : a = b).
    { destruct (proj1 (H a) (or_introl eq_refl)) as [E|I]; [now symmetry|]. destruct (proj2 (H b) (or_introl eq_refl)) as [E|J]; [exact E|].
      destruct (AS a b); auto. }
    subst b. f_equal. apply IH; [exact S1|exact S1'|]. intro x. split; intro I.
    + destruct (proj1 (H x) (or_intror I)) as [<-|J]; [|exact J]. destruct (AS a a); auto.
    + destruct (proj2 (H x) (or_intror I)) as [<-|J]; [|exact J]. destruct (AS a a); auto.
Qed.
Lemma before_asym p q : before p q -> before q p -> False.
Proof. unfold before. intros [[A B]|[A B]] [[C D]|[C D]]; try congruence; lia. Qed.
Lemma forall2_maps {A B C} (h : A -> C) (k : B -> C) (R : A -> B -> Prop) : forall l l', map h l = map k l' ->
  (forall x y, In x l -> In y l' -> h x = k y -> R x y) -> Forall2 R l l'.
Proof.
  induction l as [|a l IH]; intros [|b l'] E H; cbn [map] in E; try discriminate; constructor.
  - injection E as E _. apply H; [now left|now left|exact E].
  - injection E as _ E. apply IH; [exact E|]. intros x y I J. apply H; now right.
Qed.
Lemma sorted_nodup {A} (R : A -> A -> Prop) l : (forall x, ~ R x x) -> StronglySorted R l -> NoDup l.
Proof.
  intro H. induction 1 as [|x l S IH F]; constructor; [|exact IH]. intro I. rewrite Forall_forall in F. exact (H _ (F _ I)).
Qed.

Section Shuffled.
Variables (g : place -> place) (m m' : entries).
Hypothesis S : shuffled g m m'.

Lemma shuffled_injective p q e d : entry_at m p e -> entry_at m q d -> g p = g q -> p = q.
Proof.
  intros P Q G. destruct (sh_there S P) as [e1 [P1 [N1 _]]]. destruct (sh_there S Q) as [d1 [Q1 [M1 _]]]. rewrite <- G in Q1. unfold entry_at in *.
  assert (D : e1 = d1) by congruence. subst d1.
  assert (N : P_Header.same_name (e_name e) (e_name d)) by (apply same_name_lower in N1; apply same_name_lower in M1; apply same_name_lower; congruence).
  assert (N' : P_Header.same_name (e_name d) (e_name e)) by (apply P_Header.same_name_sym, N).
  assert (F : fst p = fst q) by (rewrite <- (sh_side S p), <- (sh_side S q); congruence).
  destruct (Nat.lt_trichotomy (snd p) (snd q)) as [L|[L|L]].
  - pose proof (sh_order S P Q N F L) as K. rewrite G in K. lia.
  - destruct p, q. cbn in *. congruence.
  - pose proof (sh_order S Q P N' (eq_sym F) L) as K. rewrite G in K. lia.
Qed.
Lemma shuffled_fields name : Forall2 (moves g) (enumerate m name) (enumerate m' name).
Proof.
  assert (X : map (fun x => g (fst x)) (enumerate m name) = map fst (enumerate m' name)).
  { apply (sorted_same before_asym).
    - assert (H : forall x, In x (enumerate m name) -> entry_at m (fst x) (snd x) /\ P_Header.same_name name (e_name (snd x))).
      { intros [p e] I. apply enumerate_in in I. destruct I as [I N]. split; [exact I|now apply same_name_lower]. }
      pose proof (enumerate_sorted m name) as O. induction O as [|x l O IH F]; cbn [map]; constructor.
      + apply IH. intros y I. apply H. now right.
      + rewrite Forall_map. rewrite Forall_forall in *. intros y I. specialize (F y I). unfold before', before in F. unfold before. rewrite !(sh_side S).
        destruct F as [F|[F L]]; [now left|]. right. split; [exact F|]. destruct (H x (or_introl eq_refl)) as [A1 N1]. destruct (H y (or_intror I)) as [A2 N2].
        apply (sh_order S A1 A2); [|exact F|exact L]. apply same_name_lower in N1. apply same_name_lower in N2. apply same_name_lower. congruence.
    - pose proof (enumerate_sorted m' name) as O. eapply sorted_map; [|exact O]. intros x y H. exact H.
    - intro p'. rewrite !in_map_iff. split.
      + intros [[p e] [<- I]]. apply enumerate_in in I. destruct I as [I N]. cbn [fst]. destruct (sh_there S I) as [e' [I' [N' _]]].
        exists (g p, e'). split; [reflexivity|]. apply enumerate_in. split; [exact I'|]. apply same_name_lower in N'. congruence.
      + intros [[q e'] [<- I]]. apply enumerate_in in I. destruct I as [I N]. cbn [fst]. destruct (sh_all S I) as [p [e [J <-]]].
        exists (p, e). split; [reflexivity|]. apply enumerate_in. split; [exact J|]. destruct (sh_there S J) as [e1 [J1 [N1 _]]]. apply same_name_lower in N1.
        unfold entry_at in J1. assert (e1 = e') by congruence. subst e1. congruence. }
  apply (forall2_maps X). intros [p e] [p' e'] I J E. cbn [fst] in E. apply enumerate_in in I. apply enumerate_in in J. split; [exact E|]. cbn [snd].
  destruct I as [I _], J as [J _]. destruct (sh_there S I) as [e1 [J1 [_ V]]]. unfold entry_at in J1. rewrite E in J1. assert (e1 = e') by congruence. subst e1. exact V.
Qed.
Lemma names_nodup k : NoDup (map lower (names k)).
Proof.
  apply NoDup_nth_error. intros i j L H. rewrite map_length in L. destruct (C33_names k) as [_ [_ N]].
  rewrite !nth_error_map in H. destruct (nth_error (names k) i) as [a|] eqn:A; [|apply nth_error_None in A; lia].
  destruct (nth_error (names k) j) as [b|] eqn:B; [|discriminate H]. cbn in H. apply (N i j a b A B), same_name_lower. congruence.
Qed.
Lemma shuffled_names : rearranged Alike.same_name (names m) (names m').
Proof.
  assert (P : Permutation (map lower (names m')) (map lower (names m))).
  { apply NoDup_Permutation; try apply names_nodup. intro n. rewrite !in_map_iff. destruct (C33_names m) as [A [B _]]. destruct (C33_names m') as [A' [B' _]]. split.
    - intros [a [<- I]]. destruct (A' a I) as [p' [e' [J <-]]]. destruct (sh_all S J) as [p [e [K <-]]]. destruct (sh_there S K) as [e1 [K1 [N1 _]]].
      unfold entry_at in *. assert (e1 = e') by congruence. subst e1. destruct (B p e K) as [n' [I' N']]. exists n'. split; [|exact I']. apply same_name_lower in N1, N'. congruence.
    - intros [a [<- I]]. destruct (A a I) as [p [e [J <-]]]. destruct (sh_there S J) as [e' [J' [N' _]]]. destruct (B' _ _ J') as [n' [I' K]]. exists n'. split; [|exact I'].
      apply same_name_lower in N', K. congruence. }
  apply Permutation_map_inv in P. destruct P as [k [E P]]. exists k. split; [exact P|]. apply (forall2_maps (eq_sym E)). intros a b _ _ H. exact H.
Qed.
Lemma in_number {A} (l : list A) i x : In (i, x) (number 0 l) <-> nth_error l i = Some x.
Proof. rewrite number_nth, Nat.sub_0_r. split; [tauto|]. intro H. split; [lia|exact H]. Qed.
Lemma shuffled_trailers : rearranged (fun x y : nat * entry => g (true, fst x) = (true, fst y) /\ Alike.same_name (e_name (snd x)) (e_name (snd y)))
  (number 0 (trailer_entries m)) (number 0 (trailer_entries m')).
Proof.
  assert (ND : forall l : list entry, NoDup (map fst (number 0 l))).
  { intro l. apply (@sorted_nodup nat lt); [intro; lia|]. eapply sorted_map; [|apply number_sorted]. intros x y H. exact H. }
  assert (P : Permutation (map (fun y : nat * entry => (true, fst y)) (number 0 (trailer_entries m'))) (map (fun x : nat * entry => g (true, fst x)) (number 0 (trailer_entries m)))).
  { apply NoDup_Permutation.
    - rewrite <- (map_map fst (fun i => (true, i))). apply FinFun.Injective_map_NoDup; [|apply ND]. intros i j H. congruence.
    - assert (H : forall x, In x (number 0 (trailer_entries m)) -> entry_at m (true, fst x) (snd x)) by (intros [i e] I; now apply in_number).
      pose proof (ND (trailer_entries m)) as N. induction (number 0 (trailer_entries m)) as [|x l IH]; cbn [map] in *; constructor.
      + intro I. apply in_map_iff in I. destruct I as [y [G I]]. inversion N as [ | ? ? N1 N2]; subst. apply N1. apply in_map_iff. exists y. split; [|exact I].
        pose proof (shuffled_injective (H y (or_intror I)) (H x (or_introl eq_refl)) G) as K. congruence.
      + inversion N; subst. apply IH; [|assumption]. intros y I. apply H. now right.
    - intro p. rewrite !in_map_iff. split.
      + intros [[i e'] [<- I]]. apply in_number in I. destruct (@sh_all _ _ _ S (true, i) e' I) as [[t k] [e [J G]]]. pose proof (sh_side S (t, k)) as F. rewrite G in F. cbn in F. subst t.
        exists (k, e). split; [exact G|]. now apply in_number.
      + intros [[i e] [<- I]]. apply in_number in I. destruct (@sh_there _ _ _ S (true, i) e I) as [e' [J _]]. cbn [fst]. pose proof (sh_side S (true, i)) as F.
        destruct (g (true, i)) as [t k] eqn:G. cbn in F. subst t. exists (k, e'). split; [reflexivity|]. now apply in_number. }
  apply Permutation_map_inv in P. destruct P as [k [E P]]. exists k. split; [exact P|]. apply (forall2_maps (eq_sym E)). intros [i e] [j e'] I J H. split; [exact H|]. cbn [fst snd] in *.
  apply (Permutation_in _ (Permutation_sym P)) in I. apply in_number in I, J. destruct (@sh_there _ _ _ S (true, i) e I) as [e1 [K [N _]]]. rewrite H in K. unfold entry_at in K. cbn in K.
  assert (e1 = e') by congruence. subst e1. now apply same_name_lower.
Qed.
Lemma shuffled_empty : header_entries m = [] <-> header_entries m' = [].
Proof.
  split; intro H.
  - destruct (header_entries m') as [|e' l] eqn:E; [reflexivity|]. destruct (@sh_all _ _ _ S (false, 0) e') as [[t k] [e [J G]]]; [unfold entry_at; cbn; now rewrite E|].
    pose proof (sh_side S (t, k)) as F. rewrite G in F. cbn in F. subst t. unfold entry_at in J. cbn in J. rewrite H in J. destruct k; discriminate J.
  - destruct (header_entries m) as [|e l] eqn:E; [reflexivity|]. destruct (@sh_there _ _ _ S (false, 0) e) as [e' [J _]]; [unfold entry_at; cbn; now rewrite E|].
    pose proof (sh_side S (false, 0)) as F. unfold entry_at in J. rewrite F in J. cbn in J. rewrite H in J. destruct (snd (g (false, 0))); discriminate J.
Qed.
End Shuffled.

Lemma shuffled_matched g m m' : shuffled_message g m m' -> matched g m m'.
Proof.
  intros [V [B [D [U S]]]]. constructor; try assumption.
  - apply S.
  - now apply shuffled_fields.
  - now apply (shuffled_names S).
  - now apply shuffled_trailers.
  - now apply (shuffled_empty S).
Qed.
Lemma shuffled_exchange_matched f x x' : shuffled_exchange f x x' -> matched_exchange f x x'.
Proof.
  intros [Q [L R]]. split.
  - destruct (x_request x) as [q|], (x_request x') as [q'|]; try contradiction; constructor. destruct Q as [A [B [C D]]]. constructor; try assumption. now apply shuffled_matched.
  - assert (H : forall l l' n, List.length l = List.length l' -> (forall i p p', nth_error l i = Some p -> nth_error l' i = Some p' -> shuffled_response (f (Resp (n + i))) p p') -> matched_responses f n l l').
    { induction l as [|p l IH]; intros [|p' l'] n L' H; try discriminate L'; constructor.
      - specialize (H 0 p p' eq_refl eq_refl). rewrite Nat.add_0_r in H. destruct H as [A [B C]]. constructor; try assumption. now apply shuffled_matched.
      - apply IH; [injection L' as L'; exact L'|]. intros i p1 p1' H1 H2. specialize (H (S i) p1 p1' H1 H2). now rewrite Nat.add_succ_r in H. }
    apply H; [exact L|]. intros i p p' H1 H2. exact (R i p p' H1 H2).
Qed.

Lemma about_same_arg f a b : same_arg f a b -> about_same f a b.
Proof.
  intros [| | |w x y H|w l l' [k [P F]]| |]; try constructor; try (now apply same_name_lower). apply about_headers with k; [exact P|].
  clear P. induction F as [|x y k l' H F IH]; constructor; [now apply same_name_lower|exact IH].
Qed.
Lemma about_context f a b : same_context f a b -> about_the_same f a b.
Proof. intro F. induction F as [|x y a b [H K] F IH]; constructor; [split; [exact H|now apply about_same_arg]|exact IH]. Qed.

Lemma events_forward f es es' w id ctx : id <> 1032%N -> same_events f es es' -> In (Said w id ctx) es -> exists ctx', In (Said w id ctx') es' /\ (id = 1200%N \/ about_the_same f ctx ctx').
Proof.
  intros N H I. assert (J : In (Said w id ctx) (filter counts es)) by (apply filter_In; split; [exact I|]; cbn [counts]; apply negb_true_iff, N.eqb_neq, N).
  destruct (rearranged_in H J) as [e' [K S]]. apply filter_In in K. destruct K as [K _].
  inversion S as [v n c c' C|v c c'|]; subst; [exists c'|exists c']; (split; [exact K|]); [right; now apply about_context|now left].
Qed.
Lemma events_back f es es' w id ctx' : id <> 1032%N -> same_events f es es' -> In (Said w id ctx') es' -> exists ctx, In (Said w id ctx) es /\ (id = 1200%N \/ about_the_same f ctx ctx').
Proof.
  intros N H I. assert (J : In (Said w id ctx') (filter counts es')) by (apply filter_In; split; [exact I|]; cbn [counts]; apply negb_true_iff, N.eqb_neq, N).
  destruct (rearranged_back H J) as [e [K S]]. apply filter_In in K. destruct K as [K _].
  inversion S as [v n c c' C|v c c'|]; subst; [exists c|exists c]; (split; [exact K|]); [right; now apply about_context|now left].
Qed.
Lemma events_silenced f es es' w ids : same_events f es es' -> In (Silenced w ids) es <-> In (Silenced w ids) es'.
Proof.
  intro H. split; intro I.
  - assert (J : In (Silenced w ids) (filter counts es)) by (apply filter_In; split; [exact I|reflexivity]).
    destruct (rearranged_in H J) as [e' [K S]]. apply filter_In in K. inversion S; subst. apply K.
  - assert (J : In (Silenced w ids) (filter counts es')) by (apply filter_In; split; [exact I|reflexivity]).
    destruct (rearranged_back H J) as [e [K S]]. apply filter_In in K. inversion S; subst. apply K.
Qed.

(** C80.  Moving fields past fields with other names, and changing the case of
    their names, does not change whether the checks come to an end, what is
    silenced, which notices are reported on each message, and what they are
    about.  The exceptions are notice 1032 (which is about which field is the
    first) and what 1200 points to (one of several headers). *)
Theorem C80_order : forall E f x x', parses_http (e_read E) -> reads_names_alike (e_read E) -> shuffled_exchange f x x' ->
  (finished E x <-> finished E x') /\
  (finished E x ->
    (forall w id, silenced E x w id <-> silenced E x' w id) /\
    (forall w id ctx, id <> 1032%N -> said E x w id ctx -> exists ctx', said E x' w id ctx' /\ (id = 1200%N \/ about_the_same f ctx ctx')) /\
    (forall w id ctx', id <> 1032%N -> said E x' w id ctx' -> exists ctx, said E x w id ctx /\ (id = 1200%N \/ about_the_same f ctx ctx'))).
Proof.
  intros E f x x' H A S. apply shuffled_exchange_matched in S.
  assert (A' : forall a b, Alike.same_name a b -> (e_read E field_name a = None <-> e_read E field_name b = None)).
  { intros a b N. split; apply A; apply same_name_lower; [exact N|symmetry; exact N]. }
  pose proof (alike_exchange H A' S) as K. unfold sim, finished, silenced, said in *.
  destruct (check_exchange x E) as [es [v|e]], (check_exchange x' E) as [es' [v'|e']]; try contradiction; cbn [fst snd].
  - destruct K as [K ->]. split; [reflexivity|]. intros _. split; [|split].
    + intros w id. split; intros [ids [I J]]; exists ids; (split; [|exact J]); now apply (events_silenced w ids K).
    + intros w id ctx N. now apply events_forward.
    + intros w id ctx N. now apply events_back.
  - split; [split; discriminate|discriminate].
Qed.
Print Assumptions C80_order.

(** The condition on names holds for the parser of the program: names are
    tokens. *)
Lemma field_name_reads : reads_as field_name (fun w v cs => all1 is_tchar w /\ v = VObj (s "FieldName") [VStr w] /\ cs = []).
Proof.
  apply reads_as_intro; [reflexivity|]. intros nst w v cs. unfold field_name, pivot_. rewrite M_seal, M_V. setoid_rewrite V_wrap. split.
  - intros [ns [[n [c [v' [c' [H [E [-> P]]]]]]] ->]]. apply (V_text (token_textual nst)) in H. destruct H as [H [-> ->]]. cbn in E. injection E as <- <-.
    exists []. split; [auto|]. now apply Permutation_sym.
  - intros [cs' [[H [-> ->]] P]]. apply Permutation_sym, Permutation_nil in P. subst cs. exists [VObj (s "FieldName") [VStr w]]. split; [|reflexivity].
    exists [VStr w], [], (VObj (s "FieldName") [VStr w]), []. repeat split; [|constructor]. apply (V_text (token_textual nst)). auto.
Qed.
Lemma tchar_lower c : is_tchar (lower1 c) = is_tchar c.
Proof.
  unfold lower1. destruct (is_upper c) eqn:V; [|reflexivity]. unfold is_upper in V.
  destruct ((65 <=? c) && (c <=? 90))%N eqn:U; cbn [orb] in V.
  2:{ unfold is_tchar, is_alpha, HttpText.is_digit. 
    assert (A : forall d, (128 <= d)%N -> HttpText.among (s "!#$%&'*+-.^_`|~") d = false).
    { intros d D. unfold HttpText.among. apply not_true_iff_false. rewrite existsb_exists. intros [x [I Q]]. apply N.eqb_eq in Q. subst x. cbn in I. repeat (destruct I as [<-|I]; [lia|]). exact I. }
    rewrite !A by lia. lia. }
  unfold is_tchar, is_alpha. assert (A : ((65 <=? c) && (c <=? 90) || (97 <=? c) && (c <=? 122))%N = true) by lia.
  assert (B : ((65 <=? c + 32) && (c + 32 <=? 90) || (97 <=? c + 32) && (c + 32 <=? 122))%N = true) by lia. now rewrite A, B, !orb_true_r.
Qed.
Lemma tchars_alike a b : P_Header.same_name a b -> all1 is_tchar a -> all1 is_tchar b.
Proof.
  intros N [A B]. apply same_name_lower in N. unfold lower in N. split.
  - intros ->. apply A. destruct a; [reflexivity|discriminate N].
  - unfold HttpText.all in *. clear A. revert b N. induction B as [|c a C B IH]; intros [|d b] N; cbn [map] in N; try discriminate N; constructor.
    + injection N as N _. rewrite <- tchar_lower, <- N, tchar_lower. exact C.
    + injection N as _ N. now apply IH.
Qed.
Theorem C80_names : forall nst annotated read, (forall w, faithful nst annotated read field_name w) -> reads_names_alike read.
Proof.
  intros nst annotated read F a b N R. destruct (read field_name b) as [[v cs]|] eqn:Q; [|reflexivity]. exfalso.
  pose proof (F a) as Fa. pose proof (F b) as Fb. unfold faithful in Fa, Fb. rewrite R in Fa. rewrite Q in Fb. destruct Fa as [e Ra]. destruct Fb as [r [Rb _]].
  destruct (field_name_reads nst annotated b) as [_ [_ B]]. destruct (B r Rb) as [cs' [[B1 _] _]].
  destruct (field_name_reads nst annotated a) as [A _]. destruct A as [r' A]; [|pose proof (returns_unique Ra A) as X; discriminate X].
  exists (VObj (s "FieldName") [VStr a]), []. split; [|split; reflexivity]. exact (tchars_alike (P_Header.same_name_sym N) B1).
Qed.
Print Assumptions C80_names.

(** *** Example *)

(** A parser that knows field names, and some other texts. *)
Definition knows_names (l : list (symbol * string * val)) (x : symbol) (w : str) : option (val * list vcomplaint) :=
  if symbol_dec x field_name
  then (if match w with [] => false | _ => forallb is_tchar w end then Some (VObj (s "FieldName") [VStr w], []) else None)
  else knows l x w.
Lemma names_known l : reads_names_alike (knows_names l).
Proof.
  intros a b N. unfold knows_names. destruct (symbol_dec field_name field_name) as [_|X]; [|destruct (X eq_refl)].
  assert (T : forall w, match w with [] => false | _ => forallb is_tchar w end = true <-> all1 is_tchar w).
  { intros [|c w]; unfold all1, HttpText.all; [split; [discriminate|intros [X _]; destruct (X eq_refl)]|].
    rewrite forallb_forall, Forall_forall. split; [intro H; split; [discriminate|exact H]|intros [_ H]; exact H]. }
  destruct (match b with [] => false | _ => forallb is_tchar b end) eqn:B; [|reflexivity].
  apply T in B. apply (tchars_alike (P_Header.same_name_sym N)) in B. apply T in B. rewrite B. discriminate.
Qed.
Lemma knows_names_http n l : Forall (fun e => run_http n (fst (fst e)) (s (snd (fst e))) = Some (snd e, [])) l -> parses_http (knows_names l).
Proof.
  intro F. destruct (knows_http F) as [nst [again [A B]]]. exists nst, again. split; [exact A|]. intros x w v cs H. unfold knows_names in H.
  destruct (symbol_dec x field_name) as [->|]; [|exact (B x w v cs H)]. destruct (match w with [] => false | _ => forallb is_tchar w end) eqn:W; [|discriminate H].
  injection H as <- <-. assert (T : all1 is_tchar w).
  { destruct w as [|c w]; [discriminate W|]. split; [discriminate|]. unfold HttpText.all. now apply Forall_forall, forallb_forall. }
  exists (fun _ => false). destruct (field_name_reads (nested again) (fun _ => false) w) as [R [_ Q]]. destruct R as [r R]; [eexists _, []; split; [exact T|split; reflexivity]|].
  destruct (Q r R) as [cs [[_ [V ->]] P]]. exists r. split; [exact R|]. split; [exact V|]. now apply Permutation_sym, Permutation_nil in P.
Qed.
Definition naming_env (texts : list (symbol * string * val)) : env :=
  let E := env_with texts in
  {| e_read := knows_names texts; e_now := e_now E; e_gzip := e_gzip E; e_deflate := e_deflate E; e_brotli := e_brotli E; e_codec := e_codec E; e_decode := e_decode E; e_replace := e_replace E;
     e_json := e_json E; e_xml := e_xml E; e_email := e_email E; e_qs := e_qs E; e_url := e_url E; e_join := e_join E; e_base64 := e_base64 E; e_fnmatch := e_fnmatch E |}.
Definition plain_get (l : list (string * string)) : exchange :=
  Exchange (Some (Request (Message (Some (s "HTTP/1.1")) (headers_of l) (VBytes []) None None) (Some (s "http")) (s "GET") (s "/"))) [].
Definition one_order := plain_get [("Host", "?"); ("X-Y", "1"); ("Bad Name", "2"); ("X-Y", "3")].
Definition another_order := plain_get [("bad name", "2"); ("x-y", "1"); ("X-Y", "3"); ("HOST", "?")].
Definition moved_to (w : who) (p : place) : place :=
  match p with (false, 0) => (false, 3) | (false, 2) => (false, 0) | (false, 3) => (false, 2) | _ => p end.
Lemma orders_shuffled : shuffled_exchange moved_to one_order another_order.
Proof.
  split; [|split; [reflexivity|intros [|i] p p' H; discriminate H]]. cbn [x_request one_order another_order plain_get]. repeat (split; [reflexivity|]). constructor.
  - intros [[] i] e H; [destruct i; discriminate H|]. unfold entry_at in H. cbn [fst snd] in H.
    destruct i as [|[|[|[|i]]]]; [| | | |destruct i; discriminate H]; injection H as <-; (eexists; split; [reflexivity|split; [apply same_name_lower; reflexivity|reflexivity]]).
  - intros [[] i] e H; [destruct i; discriminate H|]. unfold entry_at in H. cbn [fst snd] in H. destruct i as [|[|[|[|i]]]]; [| | | |destruct i; discriminate H].
    + exists (false, 2). eexists. split; reflexivity.
    + exists (false, 1). eexists. split; reflexivity.
    + exists (false, 3). eexists. split; reflexivity.
    + exists (false, 0). eexists. split; reflexivity.
  - intros [[] [|[|[|[|i]]]]]; reflexivity.
  - intros [[] i] [[] k] e d H K N F L; try discriminate F; [destruct i; discriminate H|]. unfold entry_at in H, K. cbn [fst snd] in H, K, L.
    destruct i as [|[|[|[|i]]]]; [| | | |destruct i; discriminate H]; (destruct k as [|[|[|[|k]]]]; [| | | |destruct k; discriminate K]); try lia; cbn; try lia;
      injection H as <-; injection K as <-; apply same_name_lower in N; vm_compute in N; discriminate N.
Qed.
(** Here 1000 is about the Host field in both, and 1032 is reported only on the
    second, which does not begin with Host. *)
Example C80_example : parses_http (e_read (naming_env [])) /\ reads_names_alike (e_read (naming_env [])) /\
  shuffled_exchange moved_to one_order another_order /\ finished (naming_env []) one_order /\
  said (naming_env []) one_order Req 1000 [(s "error", CVal (VObj (s "ParseError") [])); (s "place", CEntry Req (false, 0))] /\
  said (naming_env []) another_order Req 1000 [(s "error", CVal (VObj (s "ParseError") [])); (s "place", CEntry Req (false, 3))] /\
  said (naming_env []) another_order Req 1032 [].
Proof.
  split; [apply (@knows_names_http 300 []); constructor|]. split; [apply names_known|]. split; [apply orders_shuffled|].
  split; [vm_compute; reflexivity|]. unfold said. split; [|split]; vm_compute; tauto.
Qed.
