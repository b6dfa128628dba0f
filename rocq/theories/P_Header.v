(** Properties C33, C34, C35, C36, C37 and C38: how header entries become the
    values that the checks see. *)
From Coq Require Import ZifyBool ZifyNat ZifyN String Sorted Permutation.
From Verif Require Import Base Earley EarleySpec Parse P_Earley Grammar GrammarSem GrammarCalc GrammarVals Syntax Actions Reading HttpText SyntaxVals P_Grammar P_Util Structure Known Header HeaderProofs.
Open Scope nat_scope.
Open Scope list_scope.
Unset Strict Implicit.

(** ** The specification *)

(** Names that differ at most in the case of letters. *)
Definition same_name (a b : str) : Prop := Forall2 P_Util.same_letter a b.
(** [i] is what is known about headers called [name]. *)
Definition known_as (i : header_info) (name : str) : Prop := In i header_table /\ same_name (hk_key i) name.
(** A header that must not be sent in a trailer. *)
Definition forbidden_in_trailer (name : str) : Prop := exists i, known_as i name /\ hk_bad_for_trailer i = true.

(** Entry [e] is at place [p] of the message. *)
Definition entry_at (m : entries) (p : place) (e : entry) : Prop :=
  nth_error (if fst p then trailer_entries m else header_entries m) (snd p) = Some e.
(** It can be used for the header called [name]. *)
Definition usable (m : entries) (name : str) (p : place) (e : entry) : Prop :=
  entry_at m p e /\ same_name name (e_name e) /\ ~ (fst p = true /\ forbidden_in_trailer name).
(** [us] are all usable entries: those of the header, then those of the
    trailer, each in order. *)
Definition all_usable (m : entries) (name : str) (us : list (place * entry)) : Prop :=
  (forall p e, In (p, e) us <-> usable m name p e) /\ StronglySorted (fun x y => before (fst x) (fst y)) us.

(** The view of a header, when it is the first one looked up. *)
Definition view_is (read : symbol -> str -> option (val * list vcomplaint)) (m : entries) (name : str) (v : view) : Prop :=
  lookup read m [] name = Some ([(name, v)], v, v_notices v).

(** The value of an entry with text [w] in a header [name] that needs no
    processing after parsing. *)
Inductive entry_value (read : symbol -> str -> option (val * list vcomplaint)) (name : str) (w : str) : val -> Prop :=
| ev_unknown : (forall i x, known_as i name -> hk_syntax i <> Some x) -> entry_value read name w (VBytes w)
| ev_parsed i x v cs : known_as i name -> hk_syntax i = Some x -> read x w = Some (v, cs) -> entry_value read name w v
| ev_malformed i x : known_as i name -> hk_syntax i = Some x -> read x w = None -> entry_value read name w (VUnavailable (VBytes w)).

(** *** Links with the model *)

Lemma same_name_lower a b : same_name a b <-> lower a = lower b.
Proof. symmetry. apply lower_spec. Qed.
Lemma same_name_sym a b : same_name a b -> same_name b a.
Proof. rewrite !same_name_lower. auto. Qed.
Lemma known_as_iff i name : known_as i name <-> header_of name = Some i.
Proof.
  unfold known_as. rewrite same_name_lower. split.
  - intros [I L]. exact (find_header_in header_keys_distinct I L).
  - intro H. exact (find_header_some H).
Qed.
Lemma known_as_unique i j name : known_as i name -> known_as j name -> i = j.
Proof. rewrite !known_as_iff. congruence. Qed.
Lemma flag_of_spec f name : flag_of f name = true <-> exists i, known_as i name /\ f i = true.
Proof.
  unfold flag_of. setoid_rewrite known_as_iff. destruct (header_of name) as [i|]; split.
  - intro H. now exists i.
  - intros [j [J F]]. congruence.
  - discriminate.
  - intros [j [J F]]. discriminate.
Qed.
Lemma forbidden_spec name : is_bad_for_trailer name = true <-> forbidden_in_trailer name.
Proof. apply flag_of_spec. Qed.

Lemma kept_usable m name : all_usable m name (filter (kept name) (enumerate m name)).
Proof.
  split.
  - intros p e. rewrite filter_In, enumerate_in. unfold usable, entry_at. rewrite same_name_lower, <- forbidden_spec. unfold kept. cbn [fst].
    rewrite negb_true_iff, andb_false_iff. destruct (fst p), (is_bad_for_trailer name); intuition congruence.
  - apply filter_sorted. exact (enumerate_sorted m name).
Qed.

Lemma before_irrefl p : ~ before p p.
Proof. unfold before. intros [[A B]|[A B]]; [congruence|lia]. Qed.
Lemma before_trans p q r : before p q -> before q r -> before p r.
Proof. unfold before. intros [[A B]|[A B]] [[C D]|[C D]]; try (left; split; congruence); right; split; [congruence|lia]. Qed.
Lemma sorted_unique (us us' : list (place * entry)) :
  StronglySorted (fun x y => before (fst x) (fst y)) us -> StronglySorted (fun x y => before (fst x) (fst y)) us' ->
  (forall x, In x us <-> In x us') -> us = us'.
Proof.
  revert us'. induction us as [|x us IH]; intros us' S S' E.
  - destruct us' as [|y us']; [reflexivity|]. destruct (proj2 (E y)); now left.
  - destruct us' as [|y us']; [destruct (proj1 (E x)); now left|].
    inversion S as [|? ? S1 F]; inversion S' as [|? ? S1' F']; subst. rewrite Forall_forall in F, F'.
    assert (x = y).
    { destruct (proj1 (E x) (or_introl eq_refl)) as [->|I]; [reflexivity|]. destruct (proj2 (E y) (or_introl eq_refl)) as [->|I']; [reflexivity|].
      exfalso. exact (before_irrefl (before_trans (F _ I') (F' _ I))). }
    subst y. f_equal. apply IH; [assumption|assumption|]. intro z. split; intro I.
    + destruct (proj1 (E z) (or_intror I)) as [<-|I']; [|exact I']. exfalso. exact (before_irrefl (F _ I)).
    + destruct (proj2 (E z) (or_intror I)) as [<-|I']; [|exact I']. exfalso. exact (before_irrefl (F' _ I)).
Qed.
Lemma all_usable_unique m name us us' : all_usable m name us -> all_usable m name us' -> us = us'.
Proof. intros [A B] [C D]. apply sorted_unique; [exact B|exact D|]. intros [p e]. now rewrite A, C. Qed.

Lemma view_is_iff read m name v : view_is read m name v <-> exists c, class_of name = Some c /\ v = parse_view read c m name.
Proof.
  unfold view_is, lookup. cbn [find_view]. destruct (class_of name) as [c|].
  - split.
    + intro H. exists c. split; [reflexivity|]. congruence.
    + intros [d [D ->]]. injection D as <-. reflexivity.
  - split; [discriminate|intros [c [C _]]; discriminate].
Qed.

Lemma entry_value_plain read name c p e : match c with SpecialView _ => False | _ => True end ->
  entry_value read name (e_value e) (fst (read_entry read c name p e)).
Proof.
  intro P. unfold read_entry, syntax_for. destruct (header_of name) as [i|] eqn:H.
  - destruct (hk_syntax i) as [x|] eqn:S.
    + apply known_as_iff in H. destruct (read x (e_value e)) as [[v cs]|] eqn:R; [|now apply ev_malformed with i x].
      assert (X : fst (let (v', ns) := process_parsed read c p v in (v', map (placed p []) cs ++ ns ++ check_quoted_delims name p v')) = v).
      { destruct c; try reflexivity. destruct P. }
      destruct (is_unavailable v); [|rewrite X]; now apply ev_parsed with i x cs.
    + apply ev_unknown. intros j x K E. apply known_as_iff in K. congruence.
  - apply ev_unknown. intros j x K E. apply known_as_iff in K. congruence.
Qed.

(** The form of the notices that reading an entry reports. *)
Lemma read_notices_place read c name p e n : In n (snd (read_entry read c name p e)) ->
  fst n <> 1013%N /\ fst n <> 1026%N \/ (exists q r, snd n = (s "place", AEntry q) :: r).
Proof.
  assert (PP : forall ci t nm a m, In m (snd (process_pair read ci t p nm a)) ->
    fst m <> 1013%N /\ fst m <> 1026%N \/ (exists q r, snd m = (s "place", AEntry q) :: r)).
  { intros ci t nm a m0. unfold process_pair.
    assert (G : forall ns, (ns = [] \/ (exists k c', ns = [(k, c')] /\ k <> 1013%N /\ k <> 1026%N) \/ (exists cs ex, ns = map (placed p ex) cs)) -> In m0 ns ->
      fst m0 <> 1013%N /\ fst m0 <> 1026%N \/ (exists q r, snd m0 = (s "place", AEntry q) :: r)).
    { intros ns [->|[[k [c' [-> [A B]]]]|[cs [ex ->]]]] I.
      - destruct I.
      - destruct I as [<-|[]]. left. auto.
      - apply in_map_iff in I. destruct I as [x [<- _]]. right. unfold placed. cbn [snd]. eauto. }
    destruct a; repeat match goal with |- context [match ?x with _ => _ end] => destruct x end; cbn [snd]; intro I; eapply G; try exact I;
      first [now left|right; left; eexists; eexists; split; [reflexivity|split; discriminate]|right; right; eexists; eexists; reflexivity]. }
  set (Q := fun m : notice => fst m <> 1013%N /\ fst m <> 1026%N \/ (exists q r, snd m = (s "place", AEntry q) :: r)).
  assert (PA : forall ci t pr, Forall Q (snd (process_arguments read ci t p pr))).
  { intros ci t pr. apply Forall_forall. intros m0 I. unfold process_arguments in I. destruct (unpack2 pr) as [[nm a]|]; [exact (PP _ _ _ _ _ I)|destruct I]. }
  assert (EA : forall f l, (forall v, Forall Q (snd (f v))) -> Forall Q (snd (each f l))).
  { intros f l Hf. induction l as [|v l IH]; [constructor|]. cbn. specialize (Hf v). destruct (f v), (each f l). cbn in *. now apply Forall_app. }
  assert (EO : forall f v, (forall v, Forall Q (snd (f v))) -> Forall Q (snd (each_of f v))).
  { intros f v Hf. destruct v; try constructor. cbn. specialize (EA f l Hf). destruct (each f l). exact EA. }
  assert (PD : forall pr, Forall Q (snd (process_directive read p pr))).
  { intro pr. unfold process_directive. destruct (unpack2 pr) as [[nm a]|]; [|constructor]. destruct a; try constructor.
    - apply Forall_forall. intros m0 I. exact (PP _ _ _ _ _ I).
    - destruct l as [|[] [|y [|]]]; try constructor.
      pose proof (PP true cache_directive_table nm y) as X. destruct (process_pair read true cache_directive_table p nm y) as [v ns]. cbn [snd] in *.
      apply Forall_app. split; [|apply Forall_forall; exact X].
      repeat match goal with |- context [match ?x with _ => _ end] => destruct x end; repeat constructor; discriminate. }
  assert (PS : forall v, Forall Q (snd (process_parsed read c p v))).
  { intro v. destruct c as [| | |sp]; [constructor|constructor|constructor|]. destruct sp; cbn [process_parsed].
    - apply EO. exact PD.
    - apply EO. apply PA.
    - assert (PL : forall w, Forall Q (snd (process_alternative read p w))).
      { intro w. unfold process_alternative. destruct w; try constructor. destruct args as [|i args]; [constructor|]. destruct args as [|d args]; [constructor|].
        destruct d; try constructor. destruct args as [|? ?]; [|destruct args0 as [|[] []]; constructor]. destruct args0 as [|[] [|]]; try constructor.
        pose proof (EA (process_arguments read false alt_svc_param_table p) l (PA false alt_svc_param_table)) as X.
        destruct (each (process_arguments read false alt_svc_param_table p) l). exact X. }
      destruct v; try (apply EO; exact PL). destruct (str_eqb x (s "clear")); constructor.
    - apply EO. intro w. unfold process_preference. destruct (unpack2 w) as [[pr ps]|]; [|constructor].
      pose proof (PA true preference_table pr) as X. destruct (process_arguments read true preference_table p pr). exact X.
    - apply EO. apply PA.
    - pose proof (EO (each_of (process_arguments read true forwarded_param_table p)) v (fun w => EO _ w (PA true forwarded_param_table))) as X.
      destruct (each_of (each_of (process_arguments read true forwarded_param_table p)) v) as [v' ns]. cbn [snd] in X. destruct v'; try constructor. cbn [snd].
      apply Forall_app. split; [exact X|]. unfold check_elements. apply Forall_app. split.
      + apply Forall_forall. intros m0 I. apply in_flat_map in I. destruct I as [el [_ I]]. apply in_map_iff in I. destruct I as [nm [<- _]]. left. split; discriminate.
      + repeat match goal with |- context [match ?x with _ => _ end] => destruct x end; repeat constructor; discriminate. }
  assert (QD : forall v, Forall Q (check_quoted_delims name p v)).
  { intro v. apply Forall_forall. intros m0 I. unfold check_quoted_delims in I. apply in_flat_map in I. destruct I as [x [_ I]]. left. rewrite in_app_iff in I.
    destruct (flag_of hk_quoted_comma_bad name && existsb (N.eqb 44) x), (flag_of hk_quoted_semicolon_bad name && existsb (N.eqb 59) x); cbn in I;
      repeat match goal with H : _ \/ _ |- _ => destruct H end; subst; try contradiction; split; discriminate. }
  intro I. assert (A : Forall Q (snd (read_entry read c name p e))); [|rewrite Forall_forall in A; exact (A _ I)].
  unfold read_entry. destruct (syntax_for name) as [x|]; [|constructor]. destruct (read x (e_value e)) as [[v cs]|].
  - assert (PC : Forall Q (map (placed p []) cs)).
    { apply Forall_forall. intros m0 J. apply in_map_iff in J. destruct J as [y [<- _]]. right. unfold placed. cbn [snd]. eauto. }
    destruct (is_unavailable v); [exact PC|]. specialize (PS v). destruct (process_parsed read c p v) as [v' ns]. cbn [snd] in *.
    apply Forall_app. split; [exact PC|]. apply Forall_app. split; [exact PS|apply QD].
  - constructor; [|constructor]. left. split; discriminate.
Qed.

(** ** C38: every lookup succeeds *)

(** C38.  Whatever the name, and whatever was looked up before, a lookup gives a
    view.  What is known about the name decides how its entries are combined. *)
Theorem C38_lookup : forall read m k name,
  (exists k' v ns, lookup read m k name = Some (k', v, ns)) /\
  (exists c, class_of name = Some c /\
    (forall i, known_as i name ->
       (hk_rule i = Some RSingle <-> c = SingleView) /\ (hk_rule i = Some RMulti <-> c = MultiView) /\
       (hk_rule i = None <-> c = UnknownView) /\ (hk_rule i = Some RSpecial <-> exists sp, c = SpecialView sp)) /\
    ((forall i, ~ known_as i name) -> c = UnknownView)).
Proof.
  intros read m k name. destruct (class_of_total name) as [c C]. split.
  - unfold lookup. destruct (find_view k name); [eauto|]. rewrite C. eauto.
  - exists c. split; [exact C|]. pose proof (class_of_rule C) as R. unfold rule_for in R. split.
    + intros i K. apply known_as_iff in K. rewrite K in R. destruct (hk_rule i) as [[]|].
      1-2,4: subst c; repeat split; try congruence; intros [sp E]; discriminate.
      destruct R as [kk [sp [-> _]]]. repeat split; try congruence. intros _. now exists sp.
    + intro N. destruct (header_of name) as [i|] eqn:H; [|exact R]. apply known_as_iff in H. destruct (N _ H).
Qed.
Print Assumptions C38_lookup.

(** Names that only differ in case are one key of the table; headers without a
    rule have no syntax, so that their entries can be joined; those that may
    have several entries have one. *)
Theorem C38_table :
  (forall i j, In i header_table -> In j header_table -> same_name (hk_key i) (hk_key j) -> i = j) /\
  (forall i, In i header_table -> (hk_rule i = None -> hk_syntax i = None) /\
     (hk_rule i = Some RMulti \/ hk_rule i = Some RSpecial -> hk_syntax i <> None)).
Proof.
  split.
  - intros i j I J E. apply (@known_as_unique i j (hk_key j)); split; try assumption. apply same_name_lower. reflexivity.
  - assert (X : forallb (fun i => match hk_rule i, hk_syntax i with None, None => true | Some _, Some _ => true | Some RSingle, None => true | _, _ => false end) header_table = true) by (vm_compute; reflexivity).
    rewrite forallb_forall in X. intros i I. specialize (X i I). destruct (hk_rule i) as [[]|], (hk_syntax i); split; try congruence; intros [|]; congruence.
Qed.
Print Assumptions C38_table.

Example C38_example : class_of (s "cache-CONTROL") = Some (SpecialView CacheControlView) /\ class_of (s "vary") = Some MultiView /\
  class_of (s "DATE") = Some SingleView /\ class_of (s "X-Foo") = Some UnknownView.
Proof. vm_compute. repeat split; reflexivity. Qed.

(** ** C33: what a lookup sees *)

(** A header that shows only its last entry. *)
Definition shows_one (c : view_class) : Prop := c = SingleView \/ c = SpecialView StrictTransportSecurityView.

(** C33.  The entries of a view are the usable ones, in order. *)
Theorem C33_entries : forall read m name v, view_is read m name v ->
  exists us c, all_usable m name us /\ class_of name = Some c /\
    (~ shows_one c -> v_entries v = us) /\
    (shows_one c -> (us = [] /\ v_entries v = []) \/ (exists us' x, us = us' ++ [x] /\ v_entries v = [x])).
Proof.
  intros read m name v H. apply view_is_iff in H. destruct H as [c [C ->]].
  exists (filter (kept name) (enumerate m name)), c. split; [apply kept_usable|]. split; [exact C|]. unfold parse_view. rewrite pre_parse_eq.
  set (us := filter (kept name) (enumerate m name)). set (f := fun x : place * entry => fst (read_entry read c name (fst x) (snd x))).
  assert (MU : forall us vs, v_entries (let '(es', v, ns') := parse_multi name us vs in View es' v (flat_map (fun x => if kept name x then snd (read_entry read c name (fst x) (snd x)) else [(1026%N, [(s "entry", AEntry (fst x))])]) (enumerate m name) ++ ns')) = us).
  { intros us0 vs. unfold parse_multi. destruct (filter _ vs); [reflexivity|]. destruct (_ && _); reflexivity. }
  assert (SI : forall us, let v := (let '(es', v, ns') := parse_single name us (map f us) in View es' v (flat_map (fun x => if kept name x then snd (read_entry read c name (fst x) (snd x)) else [(1026%N, [(s "entry", AEntry (fst x))])]) (enumerate m name) ++ ns')) in
     (us = [] /\ v_entries v = []) \/ (exists us' x, us = us' ++ [x] /\ v_entries v = [x])).
  { intro us0. unfold parse_single. rewrite <- map_rev. destruct (rev us0) as [|x r] eqn:R.
    - left. apply (f_equal (@rev _)) in R. rewrite rev_involutive in R. subst us0. auto.
    - right. apply (f_equal (@rev _)) in R. rewrite rev_involutive in R. subst us0. exists (rev r), x. auto. }
  unfold shows_one. split; intro S; destruct c as [| | |[]]; cbn [combine_entries]; try (exfalso; apply S; auto; fail); try (destruct S as [S|S]; discriminate);
    try apply MU; try reflexivity; apply SI.
Qed.
Print Assumptions C33_entries.

(** The usable entries are determined by the message and the name. *)
Theorem C33_unique : forall m name us us', all_usable m name us -> all_usable m name us' -> us = us'.
Proof. exact all_usable_unique. Qed.
Print Assumptions C33_unique.

(** C33.  The case of the name does not matter. *)
Theorem C33_case : forall read m a b v, same_name a b -> (view_is read m a v <-> view_is read m b v).
Proof.
  intros read m a b v E. apply same_name_lower in E. rewrite !view_is_iff, (class_of_same E). split; intros [c [C ->]]; exists c; (split; [exact C|]); [|symmetry]; now apply parse_view_same.
Qed.
Print Assumptions C33_case.

(** C33.  Whatever is looked up, in whatever order and spelling, every lookup
    gives the same as if it were the only one, and what is wrong with a header is
    reported once. *)
Theorem C33_lookups : forall read m ns,
  exists vs reported firsts, lookups read m [] ns = Some (vs, reported) /\
    Forall2 (view_is read m) ns vs /\
    (* the names looked up, once each *)
    (forall n, In n firsts -> In n ns) /\ (forall n, In n ns -> exists d, In d firsts /\ same_name d n) /\
    (forall i j a b, nth_error firsts i = Some a -> nth_error firsts j = Some b -> same_name a b -> i = j) /\
    (* what is reported for each of them *)
    exists nss, Forall2 (fun n l => exists v, view_is read m n v /\ l = v_notices v) firsts nss /\ reported = List.concat nss.
Proof.
  intros read m ns0.
  set (nt := fun n => match lookup read m [] n with Some (_, v, _) => v_notices v | None => [] end).
  assert (VI : forall n, exists v, view_is read m n v /\ nt n = v_notices v).
  { intro n. destruct (class_of_total n) as [c C]. exists (parse_view read c m n). split; [apply view_is_iff; eauto|]. unfold nt, lookup. cbn [find_view]. now rewrite C. }
  assert (G : forall ns k, (forall n v, find_view k n = Some v -> view_is read m n v) ->
    exists vs reported firsts, lookups read m k ns = Some (vs, reported) /\ Forall2 (view_is read m) ns vs /\
      (forall n, In n firsts -> In n ns /\ find_view k n = None) /\
      (forall n, In n ns -> find_view k n = None -> exists d, In d firsts /\ lower d = lower n) /\
      NoDup (map lower firsts) /\ reported = flat_map nt firsts).
  { induction ns as [|n ns IH]; intros k K.
    - exists [], [], []. cbn. split; [reflexivity|]. split; [constructor|]. split; [intros ? []|]. split; [intros ? []|]. split; [constructor|reflexivity].
    - cbn [lookups]. unfold lookup. destruct (find_view k n) as [v|] eqn:F.
      + destruct (IH k K) as [vs [rp [fs [L [V [A [B [ND R]]]]]]]]. rewrite L. exists (v :: vs), rp, fs. split; [reflexivity|]. split; [constructor; [now apply K|exact V]|].
        split; [|split; [|split; [exact ND|exact R]]].
        * intros x I. destruct (A x I). split; [now right|assumption].
        * intros x [<-|I] N; [congruence|]. now apply B.
      + destruct (class_of_total n) as [c C]. rewrite C. set (v := parse_view read c m n).
        assert (Hv : view_is read m n v) by (apply view_is_iff; exists c; auto).
        assert (FS : forall x y, lower x = lower y -> find_view k x = find_view k y).
        { clear. intros x y E. induction k as [|[q w] k IH]; cbn; [reflexivity|]. rewrite (@ci_eq_right x y q E). now rewrite IH. }
        destruct (IH ((n, v) :: k)) as [vs [rp [fs [L [V [A [B [ND R]]]]]]]].
        { intros x w. cbn [find_view]. destruct (ci_eq n x) eqn:E; [|apply K]. intro Q. injection Q as <-. apply ci_eq_lower in E.
          apply (@C33_case read m n x v); [now apply same_name_lower|exact Hv]. }
        rewrite L. exists (v :: vs), (v_notices v ++ rp), (n :: fs). split; [reflexivity|]. split; [constructor; assumption|]. split; [|split; [|split]].
        * intros x [<-|I]; [split; [now left|exact F]|]. destruct (A x I) as [A1 A2]. cbn [find_view] in A2. destruct (ci_eq n x); [discriminate|]. split; [now right|exact A2].
        * intros x I N. destruct (str_eqb (lower n) (lower x)) eqn:E.
          -- apply str_eqb_eq in E. exists n. split; [now left|exact E].
          -- destruct I as [<-|I]; [rewrite str_eqb_refl in E; discriminate|]. destruct (B x I) as [d [D1 D2]].
             { cbn [find_view]. unfold ci_eq. now rewrite E. }
             exists d. split; [now right|exact D2].
        * cbn [map]. constructor; [|exact ND]. intro I. apply in_map_iff in I. destruct I as [x [E I]]. destruct (A x I) as [_ A2]. cbn [find_view] in A2.
          assert (X : ci_eq n x = true) by (apply ci_eq_lower; congruence). rewrite X in A2. discriminate.
        * cbn [flat_map]. rewrite <- R. f_equal. destruct (VI n) as [w [W ->]]. unfold view_is in *. congruence. }
  destruct (G ns0 []) as [vs [rp [fs [L [V [A [B [ND R]]]]]]]]; [discriminate|].
  exists vs, rp, fs. split; [exact L|]. split; [exact V|]. split; [intros n I; apply A; exact I|]. split; [|split; [|exists (map nt fs); split]].
  - intros n I. destruct (B n I eq_refl) as [d [D1 D2]]. exists d. split; [exact D1|]. now apply same_name_lower.
  - intros i j a b Ha Hb E. apply same_name_lower in E. apply (proj1 (NoDup_nth_error (map lower fs)) ND).
    + rewrite map_length. apply nth_error_Some. congruence.
    + now rewrite (map_nth_error lower _ _ Ha), (map_nth_error lower _ _ Hb), E.
  - clear - VI. induction fs as [|n fs IH]; constructor; [|exact IH]. destruct (VI n) as [v [A B]]. exists v. split; [exact A|exact B].
  - now rewrite <- flat_map_concat_map.
Qed.
Print Assumptions C33_lookups.

(** C33.  Going through the headers of a message meets every name that occurs
    in it, once, in the order of their first occurrences. *)
Theorem C33_names : forall m,
  (forall n, In n (names m) -> exists p e, entry_at m p e /\ e_name e = n) /\
  (forall p e, entry_at m p e -> exists n, In n (names m) /\ same_name n (e_name e)) /\
  (forall i j a b, nth_error (names m) i = Some a -> nth_error (names m) j = Some b -> same_name a b -> i = j).
Proof.
  intro m. unfold names.
  assert (G : forall l seen,
    (forall n, In n (names_from seen l) -> exists e, In e l /\ e_name e = n) /\
    (forall e, In e l -> (exists x, In x seen /\ lower x = lower (e_name e)) \/ exists n, In n (names_from seen l) /\ lower n = lower (e_name e)) /\
    NoDup (map lower (names_from seen l)) /\ (forall n x, In n (names_from seen l) -> In x seen -> lower x <> lower n)).
  { induction l as [|e l IH]; intro seen; cbn [names_from].
    - split; [intros ? []|]. split; [intros ? []|]. split; [constructor|]. intros ? ? [].
    - destruct (existsb (ci_eq (e_name e)) seen) eqn:X.
      + destruct (IH seen) as [A [B [C D]]]. split; [|split; [|split; [exact C|exact D]]].
        * intros n I. destruct (A n I) as [x [I1 I2]]. exists x. split; [now right|exact I2].
        * intros x [<-|I]; [|now apply B]. left. apply existsb_exists in X. destruct X as [y [Y1 Y2]]. exists y. split; [exact Y1|]. apply ci_eq_lower in Y2. congruence.
      + destruct (IH (e_name e :: seen)) as [A [B [C D]]]. split; [|split; [|split]].
        * intros n [<-|I]; [exists e; split; [now left|reflexivity]|]. destruct (A n I) as [x [I1 I2]]. exists x. split; [now right|exact I2].
        * intros x [<-|I]; [right; exists (e_name e); split; [now left|reflexivity]|]. destruct (B x I) as [[y [[<-|Y1] Y2]]|[n [N1 N2]]].
          -- right. exists (e_name e). split; [now left|exact Y2].
          -- left. exists y. auto.
          -- right. exists n. split; [now right|exact N2].
        * cbn [map]. constructor; [|exact C]. intro I. apply in_map_iff in I. destruct I as [y [Y1 Y2]]. apply (D y (e_name e) Y2); [now left|congruence].
        * intros n x [<-|I] Ix.
          -- intro E. assert (Y : existsb (ci_eq (e_name e)) seen = true); [|congruence]. apply existsb_exists. exists x. split; [exact Ix|]. apply ci_eq_lower. congruence.
          -- apply D; [exact I|now right]. }
  destruct (G (header_entries m ++ trailer_entries m) []) as [A [B [C D]]].
  assert (AT : forall e, In e (header_entries m ++ trailer_entries m) <-> exists p, entry_at m p e).
  { intro e. rewrite in_app_iff. unfold entry_at. split.
    - intros [I|I]; apply In_nth_error in I; destruct I as [i I]; [exists (false, i)|exists (true, i)]; exact I.
    - intros [[[] i] H]; cbn in H; apply nth_error_In in H; auto. }
  split; [|split].
  - intros n I. destruct (A n I) as [e [I1 I2]]. apply AT in I1. destruct I1 as [p I1]. exists p, e. auto.
  - intros p e H. destruct (B e) as [[x [[] _]]|[n [N1 N2]]]; [apply AT; eauto|]. exists n. split; [exact N1|]. now apply same_name_lower.
  - intros i j a b Ha Hb E. apply same_name_lower in E. apply (proj1 (NoDup_nth_error _) C).
    + rewrite map_length. apply nth_error_Some. congruence.
    + now rewrite (map_nth_error lower _ _ Ha), (map_nth_error lower _ _ Hb), E.
Qed.
Print Assumptions C33_names.

(** ** C34: single-valued headers *)

Lemma flat_notices read c name m n :
  In n (flat_map (fun x => if kept name x then snd (read_entry read c name (fst x) (snd x)) else [(1026%N, [(s "entry", AEntry (fst x))])]) (enumerate m name)) ->
  (fst n <> 1013%N /\ fst n <> 1026%N) \/ (exists q r, snd n = (s "place", AEntry q) :: r) \/
  (exists p e, n = (1026%N, [(s "entry", AEntry p)]) /\ In (p, e) (enumerate m name) /\ kept name (p, e) = false).
Proof.
  intro I. apply in_flat_map in I. destruct I as [[p e] [I1 I]]. destruct (kept name (p, e)) eqn:K.
  - apply read_notices_place in I. tauto.
  - destruct I as [<-|[]]. right. right. exists p, e. auto.
Qed.

(** C34.  The value of a single-valued header is that of its last usable entry;
    1013 is reported with all usable entries when there are more than one. *)
Theorem C34_single : forall read m name i us v, known_as i name -> hk_rule i = Some RSingle ->
  all_usable m name us -> view_is read m name v ->
  (us = [] -> v_entries v = [] /\ v_value v = VNone) /\
  (forall us' p e, us = us' ++ [(p, e)] -> v_entries v = [(p, e)] /\ entry_value read name (e_value e) (v_value v)) /\
  (forall h ps, In (1013%N, [(s "header", h); (s "entries", AEntries ps)]) (v_notices v) <->
     1 < List.length us /\ h = AHeader (lower name) /\ ps = map fst us).
Proof.
  intros read m name i us v K R U V. apply view_is_iff in V. destruct V as [c [C ->]].
  pose proof (class_of_rule C) as X. unfold rule_for in X. rewrite (proj1 (known_as_iff i name) K), R in X. subst c.
  assert (E : us = filter (kept name) (enumerate m name)) by (eapply all_usable_unique; [exact U|apply kept_usable]).
  unfold parse_view. rewrite pre_parse_eq, <- E. cbn [combine_entries]. unfold parse_single. rewrite <- map_rev.
  set (ns := flat_map _ (enumerate m name)).
  assert (NS : forall h ps, ~ In (1013%N, [(s "header", h); (s "entries", AEntries ps)]) ns).
  { intros h ps I. apply flat_notices in I. destruct I as [[I _]|[[q [r I]]|[p [e [I _]]]]]; [now apply I|discriminate|discriminate]. }
  split; [|split].
  - intros ->. cbn. auto.
  - intros us' p e ->. rewrite rev_app_distr. cbn. split; [reflexivity|]. apply (@entry_value_plain read name SingleView p e I).
  - intros h ps. destruct (rev us) as [|x r] eqn:Rv; cbn [map v_notices].
    + apply (f_equal (@rev _)) in Rv. rewrite rev_involutive in Rv. rewrite app_nil_r, Rv. cbn. split; [intro I; destruct (NS _ _ I)|lia].
    + rewrite in_app_iff. destruct (Nat.ltb 1 (List.length us)) eqn:L.
      * apply Nat.ltb_lt in L. split; [intros [I|[I|[]]]; [destruct (NS _ _ I)|injection I as <- <-; auto]|]. intros [_ [-> ->]]. right. now left.
      * apply Nat.ltb_ge in L. split; [intros [I|[]]; destruct (NS _ _ I)|lia].
Qed.
Print Assumptions C34_single.

(** A toy parser for the examples: every text is its own value, except that an
    empty one cannot be parsed. *)
Definition toy_read (x : symbol) (w : str) : option (val * list vcomplaint) :=
  match w with [] => None | _ => Some (VStr w, []) end.
Definition age_message : entries :=
  Entries [Entry (s "Age") (s "1"); Entry (s "X") (s "y"); Entry (s "AGE") (s "2")] [Entry (s "age") (s "3"); Entry (s "ETag") (s "t")].

Example C34_example : exists i us v, known_as i (s "age") /\ hk_rule i = Some RSingle /\
  all_usable age_message (s "age") us /\ view_is toy_read age_message (s "age") v /\ List.length us = 2 /\ v_value v = VStr (s "2") /\
  map fst (v_notices v) = [1026%N; 1013%N].
Proof.
  assert (H : exists i, header_of (s "age") = Some i /\ hk_rule i = Some RSingle) by (eexists; vm_compute; split; reflexivity).
  destruct H as [i [H R]]. exists i. eexists. eexists. split; [now apply known_as_iff|]. split; [exact R|]. split; [apply kept_usable|].
  split; [apply view_is_iff; exists SingleView; split; [vm_compute; reflexivity|reflexivity]|]. vm_compute. repeat split; reflexivity.
Qed.

Lemma view_multi read m name i us v : known_as i name -> hk_rule i = Some RMulti -> all_usable m name us -> view_is read m name v ->
  exists vs, Forall2 (fun x w => entry_value read name (e_value (snd x)) w) us vs /\
   exists ns, (forall h ps, ~ In (1013%N, [(s "header", h); (s "entries", AEntries ps)]) ns) /\
    v = (let '(es', w, ns') := parse_multi name us vs in View es' w (ns ++ ns')).
Proof.
  intros K R U V. apply view_is_iff in V. destruct V as [c [C ->]].
  pose proof (class_of_rule C) as X. unfold rule_for in X. rewrite (proj1 (known_as_iff i name) K), R in X. subst c.
  assert (E : us = filter (kept name) (enumerate m name)) by (eapply all_usable_unique; [exact U|apply kept_usable]).
  unfold parse_view. rewrite pre_parse_eq, <- E. cbn [combine_entries]. eexists. split; [|eexists; split; [|reflexivity]].
  - clear. induction us as [|x us IH]; cbn; constructor; [|exact IH]. apply (@entry_value_plain read name MultiView _ _ I).
  - intros h ps I. apply flat_notices in I. destruct I as [[I _]|[[q [r I]]|[p [e [I _]]]]]; [now apply I|discriminate|discriminate].
Qed.

(** What an entry contributes to a list: its elements, or a mark that it is
    malformed. *)
Inductive contributes : val -> list val -> Prop :=
| contributes_list l : contributes (VList l) l
| contributes_malformed x : contributes (VUnavailable x) [VUnavailable x].

(** C35.  When the entries of a list-valued header are lists or malformed, its
    value is the concatenation in order.  An entry that is not a list must be
    alone; otherwise 1013 is reported. *)
Theorem C35_multi : forall read m name i us v, known_as i name -> hk_rule i = Some RMulti ->
  all_usable m name us -> view_is read m name v ->
  v_entries v = us /\
  exists vs, Forall2 (fun x w => entry_value read name (e_value (snd x)) w) us vs /\
    (forall ls, Forall2 contributes vs ls -> v_value v = VList (List.concat ls)) /\
    (forall w, vs = [w] -> (forall l, ~ contributes w l) -> v_value v = w) /\
    (forall w, In w vs -> (forall l, ~ contributes w l) -> 1 < List.length vs -> v_value v = VList [VUnavailable VNone]) /\
    (forall h ps, In (1013%N, [(s "header", h); (s "entries", AEntries ps)]) (v_notices v) <->
       (exists w, In w vs /\ (forall l, ~ contributes w l)) /\ 1 < List.length us /\ h = AHeader (lower name) /\ ps = map fst us).
Proof.
  intros read m name i us v K R U V. destruct (view_multi K R U V) as [vs [F [ns [NS ->]]]]. clear V.
  assert (L : List.length vs = List.length us) by (clear - F; induction F; cbn; lia).
  assert (CT : forall w, negb (is_list w || is_unavailable w) = true <-> forall l, ~ contributes w l).
  { intro w. split.
    - intros H l C. destruct C; discriminate.
    - intro H. destruct w; try reflexivity; exfalso; eapply H; constructor. }
  split.
  { unfold parse_multi. destruct (filter _ vs); [reflexivity|]. destruct (_ && _); reflexivity. }
  exists vs. split; [exact F|]. unfold parse_multi. destruct (filter (fun v => negb (is_list v || is_unavailable v)) vs) as [|w sg] eqn:E.
  - assert (NO : forall w, In w vs -> ~ forall l, ~ contributes w l).
    { intros w I H. assert (X : In w []) by (rewrite <- E; apply filter_In; split; [exact I|now apply CT]). destruct X. }
    cbn [v_value v_notices]. split; [|split; [|split]].
    + intros ls C. f_equal. unfold extend. clear - C. induction C as [|w l vs ls X C IH]; [reflexivity|]. cbn. rewrite IH. destruct X; reflexivity.
    + intros w -> H. destruct (NO w); [now left|exact H].
    + intros w I H. destruct (NO w I H).
    + intros h ps. rewrite app_nil_r. split; [intro I; destruct (NS _ _ I)|]. intros [[w [I H]] _]. destruct (NO w I H).
  - assert (Iw : In w vs /\ forall l, ~ contributes w l).
    { assert (X : In w (w :: sg)) by now left. rewrite <- E in X. apply filter_In in X. destruct X as [X1 X2]. split; [exact X1|now apply CT]. }
    assert (LS : S (List.length sg) <= List.length vs).
    { change (S (List.length sg)) with (List.length (w :: sg)). rewrite <- E. clear. induction vs as [|x vs IH]; cbn; [lia|]. destruct (negb _); cbn; lia. }
    assert (B : (Nat.eqb (List.length sg) 0 && Nat.eqb (List.length us) 1) = Nat.eqb (List.length us) 1).
    { destruct (Nat.eqb_spec (List.length us) 1); [|now rewrite andb_false_r]. assert (List.length sg = 0) by lia. now rewrite H. }
    rewrite B. split; [|split; [|split]].
    + intros ls C. exfalso. destruct Iw as [I H]. clear - C I H. induction C as [|x l vs ls X C IH]; [destruct I|]. destruct I as [->|I]; [exact (H _ X)|auto].
    + intros w' -> H. cbn in L. rewrite <- L. cbn [Nat.eqb v_value]. destruct Iw as [[->|[]] _]. reflexivity.
    + intros w' I H G. destruct (Nat.eqb_spec (List.length us) 1); [lia|]. reflexivity.
    + intros h ps. destruct (Nat.eqb_spec (List.length us) 1); cbn [v_notices]; rewrite in_app_iff.
      * split; [intros [I|[]]; destruct (NS _ _ I)|lia].
      * split.
        -- intros [I|[I|[]]]; [destruct (NS _ _ I)|]. injection I as <- <-. split; [now exists w|]. destruct Iw as [Iw _]. destruct vs; [destruct Iw|]. cbn in *. split; [lia|auto].
        -- intros [_ [_ [-> ->]]]. right. now left.
Qed.
Print Assumptions C35_multi.

(** *** Splitting a list over several entries *)

(** [read] does what the parser of the program does, with symbol [x] and text
    [w]. *)
Definition faithful nested annotated (read : symbol -> str -> option (val * list vcomplaint)) (x : symbol) (w : str) : Prop :=
  match read x w with
  | Some (v, cs) => exists r, reads nested annotated x w (Accepted r) /\ v = pr_node r /\ cs = pr_complaints r
  | None => exists e, reads nested annotated x w (Rejected e)
  end.
(** Elements without commas that do not begin or end with blanks, and have one
    value. *)
Definition plain_element (element : str -> val -> list vcomplaint -> Prop) : Prop :=
  (forall w v cs, element w v cs -> ~ In 44%N w /\ exists a b u u', w = a :: u /\ w = u' ++ [b] /\ is_ws a = false /\ is_ws b = false) /\
  (forall w v v' cs cs', element w v cs -> element w v' cs' -> v = v').

Lemma commas_app (l1 l2 : list str) : l1 <> [] -> l2 <> [] -> commas (l1 ++ l2) = commas l1 ++ 44%N :: commas l2.
Proof.
  intros N1 N2. induction l1 as [|x l1 IH]; [contradiction|]. destruct l1 as [|y l1].
  - cbn [app]. destruct l2; [contradiction|]. reflexivity.
  - change (commas ((x :: y :: l1) ++ l2)) with (x ++ 44%N :: commas ((y :: l1) ++ l2)). rewrite IH by discriminate.
    change (commas (x :: y :: l1)) with (x ++ 44%N :: commas (y :: l1)). now rewrite <- app_assoc.
Qed.
Lemma split_comma (a b : str) : ~ In 44%N a -> ~ In 44%N b -> forall u v, a ++ 44%N :: u = b ++ 44%N :: v -> a = b /\ u = v.
Proof.
  revert b. induction a as [|c a IH]; intros b Na Nb u v H; destruct b as [|d b]; cbn in H.
  - injection H as <-. auto.
  - injection H as <- _. destruct Nb. now left.
  - injection H as -> _. destruct Na. now left.
  - injection H as -> H. destruct (IH b) with (u := u) (v := v) as [-> ->]; auto; intro I; [apply Na|apply Nb]; now right.
Qed.
Lemma commas_inj l : forall l', l <> [] -> l' <> [] -> Forall (fun x => ~ In 44%N x) l -> Forall (fun x => ~ In 44%N x) l' -> commas l = commas l' -> l = l'.
Proof.
  induction l as [|x l IH]; intros l' N N' F F' E; [contradiction|]. destruct l' as [|y l']; [contradiction|].
  inversion F as [|? ? Fx Fl]; inversion F' as [|? ? Fy Fl']; subst. destruct l as [|x2 l], l' as [|y2 l'].
  - cbn in E. congruence.
  - exfalso. change (x = y ++ 44%N :: commas (y2 :: l')) in E. subst x. apply Fx. apply in_or_app. right. now left.
  - exfalso. change (x ++ 44%N :: commas (x2 :: l) = y) in E. subst y. apply Fy. apply in_or_app. right. now left.
  - change (x ++ 44%N :: commas (x2 :: l) = y ++ 44%N :: commas (y2 :: l')) in E. destruct (split_comma Fx Fy E) as [-> E2].
    f_equal. apply IH; try discriminate; assumption.
Qed.
Lemma blanks_unique (b b' u u' : str) a a' : HttpText.all is_ws b -> HttpText.all is_ws b' -> is_ws a = false -> is_ws a' = false ->
  b ++ a :: u = b' ++ a' :: u' -> b = b' /\ a :: u = a' :: u'.
Proof.
  revert b'. induction b as [|c b IH]; intros b' Hb Hb' A A' E; destruct b' as [|d b']; cbn in E.
  - auto.
  - injection E as -> _. inversion Hb'. congruence.
  - injection E as <- _. inversion Hb. congruence.
  - injection E as -> E. inversion Hb; inversion Hb'; subst. destruct (IH b') as [-> X]; auto.
Qed.
Lemma all_rev p (b : str) : HttpText.all p b -> HttpText.all p (rev b).
Proof. unfold HttpText.all. apply Forall_rev. Qed.
Lemma part_value_unique element (p q : @part val vcomplaint) : plain_element element -> part_ok element p -> part_ok element q -> part_text p = part_text q ->
  list_values [p] = list_values [q].
Proof.
  intros [PE PF] [Bp [Ap Ep]] [Bq [Aq Eq]] T. unfold part_text, list_values in *. cbn [flat_map].
  destruct (p_element p) as [[[w v] cs]|], (p_element q) as [[[w' v'] cs']|]; cbn [app] in *.
  - destruct (PE _ _ _ Ep) as [_ [a [b [u [u2 [E1 [E2 [E3 E4]]]]]]]]. destruct (PE _ _ _ Eq) as [_ [a' [b' [u' [u2' [E1' [E2' [E3' E4']]]]]]]].
    assert (X : w ++ p_after p = w' ++ p_after q).
    { rewrite E1, E1' in T |- *. cbn [app] in T |- *. exact (proj2 (blanks_unique Bp Bq E3 E3' T)). }
    assert (W : w = w').
    { rewrite E2, E2' in X. apply (f_equal (@rev N)) in X. rewrite !rev_app_distr in X. cbn [rev app] in X.
      destruct (blanks_unique (all_rev Ap) (all_rev Aq) E4 E4' X) as [_ Y]. rewrite E2, E2'. injection Y as -> Y. f_equal.
      now rewrite <- (rev_involutive u2), Y, rev_involutive. }
    rewrite <- W in Eq. now rewrite (PF _ _ _ _ _ Ep Eq).
  - exfalso. destruct (PE _ _ _ Ep) as [_ [a [b [u [u2 [E1 [_ [E3 _]]]]]]]]. rewrite Eq, app_nil_r in T. subst w.
    unfold HttpText.ows, HttpText.all in Bq. rewrite <- T in Bq. apply Forall_app in Bq. destruct Bq as [_ Bq]. inversion Bq. congruence.
  - exfalso. destruct (PE _ _ _ Eq) as [_ [a [b [u [u2 [E1 [_ [E3 _]]]]]]]]. rewrite Ep, app_nil_r in T. subst w'.
    unfold HttpText.ows, HttpText.all in Bp. rewrite T in Bp. apply Forall_app in Bp. destruct Bp as [_ Bp]. inversion Bp. congruence.
  - reflexivity.
Qed.
Lemma part_no_comma element (p : @part val vcomplaint) : plain_element element -> part_ok element p -> ~ In 44%N (part_text p).
Proof.
  intros [PE _] [B [A E]] I. unfold part_text in I. rewrite !in_app_iff in I.
  assert (NW : forall b, HttpText.ows b -> ~ In 44%N b).
  { intros b H J. unfold HttpText.ows, HttpText.all in H. rewrite Forall_forall in H. specialize (H _ J). discriminate. }
  destruct I as [I|[I|I]]; [exact (NW _ B I)| |exact (NW _ A I)]. destruct (p_element p) as [[[w v] cs]|]; [|destruct I]. destruct (PE _ _ _ E). contradiction.
Qed.

Definition some_shape (shape : list (@part val vcomplaint) -> Prop) : Prop := shape = list_shape \/ shape = list1_shape.
Lemma shape_nonempty shape ps : some_shape shape -> shape ps -> ps <> [].
Proof. intros [->| ->] H; [apply H|]. destruct H as [H _]. intros ->. inversion H. Qed.
Lemma shape_app shape ps qs : some_shape shape -> shape ps -> shape qs -> shape (ps ++ qs).
Proof.
  intros S P Q. pose proof (shape_nonempty S P) as N. pose proof (shape_nonempty S Q) as N'. destruct S as [->| ->].
  - destruct P as [_ P]. split; [destruct ps; [contradiction|discriminate]|]. destruct ps; [contradiction|]. exact P.
  - destruct P as [P1 [P2 P3]], Q as [Q1 [Q2 Q3]]. split; [apply Exists_app; now left|]. split; [destruct ps; [contradiction|exact P2]|].
    unfold trimmed_right in *. rewrite rev_app_distr. destruct (rev qs) as [|q r] eqn:R; [|exact Q3].
    apply (f_equal (@rev _)) in R. rewrite rev_involutive in R. cbn in R. congruence.
Qed.
Lemma list_spec_unique element shape w v v' cs cs' : plain_element element -> some_shape shape ->
  list_spec element shape w v cs -> list_spec element shape w v' cs' -> v = v'.
Proof.
  intros PE S [ps [F [H [-> [-> _]]]]] [qs [F' [H' [E [-> _]]]]]. f_equal.
  assert (T : map part_text ps = map part_text qs).
  { apply commas_inj; [| | | |exact E].
    - intro X. apply (shape_nonempty S H). destruct ps; [reflexivity|discriminate].
    - intro X. apply (shape_nonempty S H'). destruct qs; [reflexivity|discriminate].
    - rewrite Forall_map. eapply Forall_impl; [|exact F]. intros p Hp. exact (part_no_comma PE Hp).
    - rewrite Forall_map. eapply Forall_impl; [|exact F']. intros p Hp. exact (part_no_comma PE Hp). }
  clear - PE F F' T. revert qs F' T. induction F as [|p ps Hp F IH]; intros qs F' T; destruct F' as [|q qs Hq F']; try discriminate; [reflexivity|].
  cbn in T. injection T as T1 T2. change (list_values ([p] ++ ps) = list_values ([q] ++ qs)). unfold list_values. rewrite !flat_map_app.
  fold (list_values [p]) (list_values [q]) (list_values ps) (list_values qs). f_equal; [exact (part_value_unique PE Hp Hq T1)|now apply IH].
Qed.
Lemma list_spec_join element shape w1 w2 l1 l2 cs1 cs2 : some_shape shape -> list_spec element shape w1 (VList l1) cs1 -> list_spec element shape w2 (VList l2) cs2 ->
  exists cs, list_spec element shape (w1 ++ 44%N :: w2) (VList (l1 ++ l2)) cs.
Proof.
  intros S [ps [F [H [-> [E _]]]]] [qs [F' [H' [-> [E' _]]]]]. injection E as ->. injection E' as ->.
  assert (D : exists cs, (some_empty_element (ps ++ qs) /\ cs = list_complaints (ps ++ qs) ++ [(1151%N, [])]) \/ (~ some_empty_element (ps ++ qs) /\ cs = list_complaints (ps ++ qs))).
  { eexists. exact (proj1 (notice_spec (ps ++ qs) _) eq_refl). }
  destruct D as [cs D]. exists cs, (ps ++ qs). split; [now apply Forall_app|]. split; [now apply shape_app|]. split; [|split; [|exact D]].
  - unfold list_text. rewrite map_app. symmetry. apply commas_app.
    + intro X. apply (shape_nonempty S H). destruct ps; [reflexivity|discriminate].
    + intro X. apply (shape_nonempty S H'). destruct qs; [reflexivity|discriminate].
  - unfold list_values. now rewrite flat_map_app.
Qed.

(** C35.  Entries with the texts [ws] and one entry in which the same texts are
    joined by commas give the header the same value. *)
Theorem C35_split : forall nested annotated read m m' name i x element shape us p e v v',
  known_as i name -> hk_rule i = Some RMulti -> hk_syntax i = Some x ->
  some_shape shape -> reads_as x (list_spec element shape) -> plain_element element -> (forall w, In w (e_value e :: map (fun u => e_value (snd u)) us) -> faithful nested annotated read x w) ->
  all_usable m name us -> us <> [] -> Forall (fun u => read x (e_value (snd u)) <> None) us ->
  all_usable m' name [(p, e)] -> e_value e = commas (map (fun u => e_value (snd u)) us) ->
  view_is read m name v -> view_is read m' name v' ->
  v_value v = v_value v'.
Proof.
  intros nested annotated read m m' name i x element shape us p e v v' K R Sx S RA PE FA U N OK U' J V V'.
  destruct (C35_multi K R U V) as [_ [vs [F [A _]]]]. destruct (C35_multi K R U' V') as [_ [vs' [F' [A' _]]]].
  assert (EV : forall w u, In w (e_value e :: map (fun u => e_value (snd u)) us) -> entry_value read name w u -> read x w <> None -> exists l cs, u = VList l /\ list_spec element shape w (VList l) cs).
  { intros w u Iw H Ok. inversion H as [H1|j y u' cs K' Sy Ry|j y K' Sy Ry]; subst.
    - destruct (H1 i x K Sx).
    - rewrite (known_as_unique K' K), Sx in Sy. injection Sy as <-. specialize (FA w Iw). unfold faithful in FA. rewrite Ry in FA. destruct FA as [r [Rd [-> ->]]].
      destruct (RA nested annotated w) as [_ [_ C]]. destruct (C r Rd) as [cs [Q _]]. pose proof Q as [ps [_ [_ [_ [E _]]]]]. rewrite E in *. eauto.
    - rewrite (known_as_unique K' K), Sx in Sy. injection Sy as <-. contradiction. }
  assert (G : exists ls, Forall2 contributes vs ls /\ (us = [] \/ exists cs, list_spec element shape (commas (map (fun u => e_value (snd u)) us)) (VList (List.concat ls)) cs)).
  { assert (EV' : forall w u, In w (map (fun u => e_value (snd u)) us) -> entry_value read name w u -> read x w <> None -> exists l cs, u = VList l /\ list_spec element shape w (VList l) cs).
    { intros w u Iw. apply EV. now right. }
    clear - S F OK EV'. induction F as [|u w us vs H F IH].
    - exists []. split; [constructor|now left].
    - inversion OK as [|? ? O1 O2]; subst. destruct (IH O2) as [ls [C IH']]; [intros; apply EV'; [now right|assumption|assumption]|].
      destruct (EV' _ _ (or_introl eq_refl) H O1) as [l [cs [-> L]]].
      exists (l :: ls). split; [constructor; [constructor|exact C]|]. right. destruct IH' as [->|[cs' L']].
      + inversion F; subst. inversion C; subst. cbn. rewrite app_nil_r. eauto.
      + destruct us as [|u2 us].
        * inversion F; subst. inversion C; subst. cbn. rewrite app_nil_r. eauto.
        * change (commas (map (fun u => e_value (snd u)) (u :: u2 :: us))) with (e_value (snd u) ++ 44%N :: commas (map (fun u => e_value (snd u)) (u2 :: us))).
          cbn [List.concat]. eapply list_spec_join; eauto. }
  destruct G as [ls [C [->|[cs G]]]]; [contradiction|]. rewrite (A ls C).
  inversion F' as [|? w' ? ? H' F'' ]; subst. inversion F''; subst. cbn [snd] in H'.
  assert (O' : read x (e_value e) <> None).
  { intro O. specialize (FA (e_value e) (or_introl eq_refl)). unfold faithful in FA. rewrite O in FA. destruct FA as [er Rd]. destruct (RA nested annotated (e_value e)) as [B _].
    destruct B as [r Rd']; [rewrite J; eauto|]. pose proof (returns_unique Rd Rd') as Q. discriminate Q. }
  destruct (EV _ _ (or_introl eq_refl) H' O') as [l' [cs' [-> L']]]. rewrite (A' [l'] (Forall2_cons _ _ (contributes_list l') (Forall2_nil _))). cbn. rewrite app_nil_r.
  rewrite J in L'. exact (list_spec_unique PE S G L').
Qed.
Print Assumptions C35_split.

(** For example, the Connection header is such a list. *)
Definition option_spec (w : str) (v : val) (cs : list vcomplaint) : Prop := all1 is_tchar w /\ v = VObj (s "ConnectionOption") [VStr w] /\ cs = [].
Lemma option_means : means_as connection_option option_spec.
Proof.
  intros nested w v cs. unfold connection_option, pivot_, auto_. rewrite M_seal, M_V. setoid_rewrite V_wrap. unfold option_spec. split.
  - intros [ns [[n [c [v' [c' [H [E [-> P]]]]]]] ->]]. apply (V_text (token_textual nested)) in H. destruct H as [H [-> ->]]. cbn in E. injection E as <- <-.
    exists []. split; [auto|]. now apply Permutation_sym.
  - intros [cs' [[H [-> ->]] P]]. apply Permutation_sym, Permutation_nil in P. subst cs. exists [VObj (s "ConnectionOption") [VStr w]]. split; [|reflexivity].
    exists [VStr w], [], (VObj (s "ConnectionOption") [VStr w]), []. repeat split; [|constructor]. apply (V_text (token_textual nested)). auto.
Qed.
Example C35_connection : (exists i, known_as i (s "connection") /\ hk_rule i = Some RMulti /\ hk_syntax i = Some Connection) /\
  reads_as Connection (list_spec option_spec list1_shape) /\ plain_element option_spec.
Proof.
  assert (X : match header_of (s "connection") with Some i => hk_rule i = Some RMulti /\ hk_syntax i = Some Connection | None => False end) by (vm_compute; auto).
  split; [destruct (header_of (s "connection")) as [i|] eqn:Hc; [exists i; split; [now apply known_as_iff|exact X]|destruct X]|]. clear X. split.
  - destruct (@lists_mean connection_option option_spec eq_refl option_means) as [_ [_ H]].
    { intros w v cs [_ [-> _]]. split; discriminate. }
    apply reads_as_intro; [reflexivity|]. intros nested w v cs. unfold Connection, pivot_. rewrite M_seal. apply H.
  - split; [|intros w v v' cs cs' [_ [-> _]] [_ [-> _]]; reflexivity].
    intros w v cs [[N H] _]. unfold HttpText.all in *. assert (X : forall c, is_tchar c = true -> is_ws c = false /\ c <> 44%N).
    { intros c C. split.
      - destruct (is_ws c) eqn:W; [|reflexivity]. unfold is_ws in W. apply orb_true_iff in W. rewrite !N.eqb_eq in W. destruct W as [->| ->]; discriminate.
      - intros ->. discriminate. }
    split; [intro I; rewrite Forall_forall in H; destruct (X _ (H _ I)); contradiction|].
    destruct w as [|a u]; [contradiction|]. destruct (@exists_last _ (a :: u)) as [u' [b E]]; [discriminate|]. exists a, b, u, u'.
    split; [reflexivity|]. split; [exact E|]. split; [inversion H; now apply X|]. rewrite E in H. apply Forall_app in H. destruct H as [_ H]. inversion H. now apply X.
Qed.

(** The parser of the program with bounded fuel. *)
Definition run_read (x : symbol) (w : str) : option (val * list vcomplaint) :=
  match @inner_parse HG presult p_leaf (@p_act rec_rules (pyfun (fun _ _ => (VBad, []))) (fun _ => false)) p_rep 300 w (as_nonterminal x) with
  | Done (Accepted r) => Some (pr_node r, pr_complaints r)
  | _ => None
  end.
Lemma run_read_faithful x w : run_read x w <> None -> faithful (fun _ _ => (VBad, [])) (fun _ => false) run_read x w.
Proof.
  unfold faithful, run_read. set (o := inner_parse _ _ _ _ _ _). destruct o as [[r|e]| |] eqn:E; try contradiction. intros _. exists r. split; [|auto]. exists 300. exact E.
Qed.
Example C35_example :
  let m := Entries [Entry (s "Connection") (s "close"); Entry (s "Date") (s "?"); Entry (s "connection") (s "TE, foo")] [] in
  let m' := Entries [Entry (s "CONNECTION") (s "close,TE, foo")] [] in
  exists us p e, all_usable m (s "Connection") us /\ List.length us = 2 /\ all_usable m' (s "Connection") [(p, e)] /\
    e_value e = commas (map (fun u => e_value (snd u)) us) /\ Forall (fun u => run_read Connection (e_value (snd u)) <> None) us /\
    (forall w, In w (e_value e :: map (fun u => e_value (snd u)) us) -> faithful (fun _ _ => (VBad, [])) (fun _ => false) run_read Connection w) /\
    v_value (parse_view run_read MultiView m (s "Connection")) =
      VList [VObj (s "ConnectionOption") [VStr (s "close")]; VObj (s "ConnectionOption") [VStr (s "TE")]; VObj (s "ConnectionOption") [VStr (s "foo")]].
Proof.
  intros m m'. exists (filter (kept (s "Connection")) (enumerate m (s "Connection"))), (false, 0), (Entry (s "CONNECTION") (s "close,TE, foo")).
  split; [apply kept_usable|]. split; [vm_compute; reflexivity|].
  split. { assert (X : filter (kept (s "Connection")) (enumerate m' (s "Connection")) = [(false, 0, Entry (s "CONNECTION") (s "close,TE, foo"))]) by (vm_compute; reflexivity). pose proof (kept_usable m' (s "Connection")) as Q. rewrite X in Q. exact Q. }
  assert (Y : filter (kept (s "Connection")) (enumerate m (s "Connection")) = [(false, 0, Entry (s "Connection") (s "close")); (false, 2, Entry (s "connection") (s "TE, foo"))]) by (vm_compute; reflexivity).
  rewrite Y. split; [reflexivity|]. cbn [map snd e_value].
  assert (Z : forallb (fun w => match run_read Connection w with Some _ => true | None => false end) [s "close,TE, foo"; s "close"; s "TE, foo"] = true) by (vm_compute; reflexivity).
  rewrite forallb_forall in Z.
  assert (Z' : forall w, In w [s "close,TE, foo"; s "close"; s "TE, foo"] -> run_read Connection w <> None).
  { intros w I H. specialize (Z w I). rewrite H in Z. discriminate. }
  split; [constructor; [|constructor; [|constructor]]; apply Z'; cbn [In snd e_value]; auto|]. split; [intros w I; apply run_read_faithful, Z', I|].
  vm_compute. reflexivity.
Qed.

(** ** C36: trailers *)

(** A message without some of its trailer entries. *)
Definition without_trailers (keep : entry -> bool) (m : entries) : entries := Entries (header_entries m) (filter keep (trailer_entries m)).

Lemma values_of_entries read c name es : map (fun x => fst (read_entry read c name (fst x) (snd x))) es =
  map (fun e => fst (read_entry read c name (false, 0) e)) (map snd es).
Proof. rewrite map_map. apply map_ext. intro x. apply read_entry_place. Qed.
Lemma kept_entries name m : map snd (filter (kept name) (enumerate m name)) =
  filter (fun e => ci_eq name (e_name e)) (header_entries m) ++ (if is_bad_for_trailer name then [] else filter (fun e => ci_eq name (e_name e)) (trailer_entries m)).
Proof.
  assert (X : forall (l : list entry) (t : bool) k, map snd (filter (kept name) (map (fun x => (t, fst x, snd x)) (filter (named name) (number k l)))) =
    if t && is_bad_for_trailer name then [] else filter (fun e => ci_eq name (e_name e)) l).
  { intros l t. induction l as [|e l IH]; intro k; [cbn; now destruct (t && is_bad_for_trailer name)|]. cbn [number filter]. unfold named at 1. cbn [snd].
    destruct (ci_eq name (e_name e)); [|apply IH]. cbn [map filter]. unfold kept at 1. cbn [fst snd]. destruct (t && is_bad_for_trailer name) eqn:B; cbn [negb].
    - now rewrite IH.
    - cbn [map snd]. now rewrite IH. }
  unfold enumerate. rewrite filter_app, map_app, !X. reflexivity.
Qed.
Lemma combine_same c name es es' vs : map snd es = map snd es' ->
  map snd (fst (fst (combine_entries c name es vs))) = map snd (fst (fst (combine_entries c name es' vs))) /\
  snd (fst (combine_entries c name es vs)) = snd (fst (combine_entries c name es' vs)).
Proof.
  intro E. assert (L : List.length es = List.length es') by (rewrite <- (map_length snd es), E; apply map_length).
  assert (SI : map snd (fst (fst (parse_single name es vs))) = map snd (fst (fst (parse_single name es' vs))) /\ snd (fst (parse_single name es vs)) = snd (fst (parse_single name es' vs))).
  { unfold parse_single. apply (f_equal (@rev _)) in E. rewrite <- !map_rev in E. destruct (rev es) as [|x r], (rev es') as [|x' r']; try discriminate; [auto|].
    destruct (rev vs); [auto|]. cbn. injection E as -> _. auto. }
  assert (MU : map snd (fst (fst (parse_multi name es vs))) = map snd (fst (fst (parse_multi name es' vs))) /\ snd (fst (parse_multi name es vs)) = snd (fst (parse_multi name es' vs))).
  { unfold parse_multi. rewrite L. destruct (filter _ vs); [auto|]. destruct (_ && _); auto. }
  destruct c as [| | |[]]; cbn [combine_entries]; auto.
Qed.

(** C36.  Dropping any trailer entries that must not be there changes no header
    at all; 1026 is reported for each of those of a header that is looked up, and
    for nothing else. *)
Theorem C36_trailers : forall read m keep name v,
  (forall e, In e (trailer_entries m) -> keep e = false -> forbidden_in_trailer (e_name e)) ->
  view_is read m name v ->
  (exists v', view_is read (without_trailers keep m) name v' /\ v_value v' = v_value v /\ map snd (v_entries v') = map snd (v_entries v)) /\
  (forall p, In (1026%N, [(s "entry", AEntry p)]) (v_notices v) <->
     fst p = true /\ forbidden_in_trailer name /\ exists e, entry_at m p e /\ same_name name (e_name e)).
Proof.
  intros read m keep name v D V. apply view_is_iff in V. destruct V as [c [C ->]]. split.
  - exists (parse_view read c (without_trailers keep m) name). split; [apply view_is_iff; eauto|].
    assert (E : map snd (filter (kept name) (enumerate (without_trailers keep m) name)) = map snd (filter (kept name) (enumerate m name))).
    { rewrite !kept_entries. f_equal. destruct (is_bad_for_trailer name) eqn:B; [reflexivity|]. cbn [without_trailers trailer_entries].
      clear C. induction (trailer_entries m) as [|e l IH]; [reflexivity|]. cbn [filter]. rewrite <- IH by (intros; apply D; [now right|assumption]).
      destruct (keep e) eqn:K; [reflexivity|]. destruct (ci_eq name (e_name e)) eqn:N; [|reflexivity]. exfalso.
      specialize (D e (or_introl eq_refl) K). apply forbidden_spec in D. apply ci_eq_lower in N. unfold is_bad_for_trailer in *. rewrite <- (flag_of_same hk_bad_for_trailer N) in D. congruence. }
    unfold parse_view. rewrite !pre_parse_eq, !values_of_entries, E.
    set (vs := map (fun e => fst (read_entry read c name (false, 0) e)) (map snd (filter (kept name) (enumerate m name)))).
    destruct (@combine_same c name _ _ vs E) as [A B].
    destruct (combine_entries c name (filter (kept name) (enumerate (without_trailers keep m) name)) vs) as [[es1 v1] ns1].
    destruct (combine_entries c name (filter (kept name) (enumerate m name)) vs) as [[es2 v2] ns2]. cbn in *. auto.
  - intro p. unfold parse_view. rewrite pre_parse_eq.
    set (us := filter (kept name) (enumerate m name)). set (vs := map (fun x => fst (read_entry read c name (fst x) (snd x))) us).
    assert (N3 : forall p, ~ In (1026%N, [(s "entry", AEntry p)]) (snd (combine_entries c name us vs))).
    { intro q. assert (SI : ~ In (1026%N, [(s "entry", AEntry q)]) (snd (parse_single name us vs))).
      { unfold parse_single. destruct (rev us), (rev vs); cbn [snd]; try (intros []; fail). destruct (Nat.ltb 1 (List.length us)); intros I; [destruct I as [I|[]]; discriminate|destruct I]. }
      assert (MU : ~ In (1026%N, [(s "entry", AEntry q)]) (snd (parse_multi name us vs))).
      { unfold parse_multi. destruct (filter _ vs); [intros []|]. destruct (_ && _); cbn [snd]; intros I; [destruct I|destruct I as [I|[]]; discriminate]. }
      destruct c as [| | |[]]; cbn [combine_entries]; auto. }
    specialize (N3 p). destruct (combine_entries c name us vs) as [[es1 v1] ns1]. cbn [v_notices snd] in *. rewrite in_app_iff.
    split.
    + intros [I|I]; [|contradiction]. apply flat_notices in I. destruct I as [[_ I]|[[q [r I]]|[q [e [I [I1 I2]]]]]]; [now destruct I|discriminate|].
      injection I as ->. apply enumerate_in in I1. destruct I1 as [I1 I3]. unfold kept in I2. cbn [fst] in I2. apply negb_false_iff, andb_true_iff in I2. destruct I2 as [I2 I4].
      split; [exact I2|]. split; [now apply forbidden_spec|]. exists e. split; [exact I1|now apply same_name_lower].
    + intros [T [F [e [H1 H2]]]]. left. apply in_flat_map. exists (p, e). split; [apply enumerate_in; split; [exact H1|now apply same_name_lower]|].
      apply forbidden_spec in F. unfold kept. cbn [fst snd]. rewrite T, F. cbn [andb negb]. now left.
Qed.
Print Assumptions C36_trailers.

(** Among them are the headers that determine where the message ends. *)
Example C36_example : Forall forbidden_in_trailer [s "content-length"; s "Transfer-Encoding"; s "HOST"; s "Age"; s "Content-Type"] /\
  ~ forbidden_in_trailer (s "ETag") /\ ~ forbidden_in_trailer (s "X-Unknown").
Proof.
  assert (X : forallb is_bad_for_trailer [s "content-length"; s "Transfer-Encoding"; s "HOST"; s "Age"; s "Content-Type"] = true) by (vm_compute; reflexivity).
  rewrite forallb_forall in X. split; [apply Forall_forall; intros n I; apply forbidden_spec; now apply X|]. split; intro H; apply forbidden_spec in H; vm_compute in H; discriminate.
Qed.

(** ** C37: comparisons *)

Definition says (r : truth) (b : bool) : Prop := r = Truth b.

(** C37.  A header that is not there, or whose value is malformed, compares as
    false with anything that is not a header; otherwise, if the other value is
    there, the values are compared.  Headers are compared by identity only. *)
Theorem C37_compare : forall op o msg name v w,
  ((v_value v = VNone \/ exists x, v_value v = VUnavailable x) -> says (compare op o msg name v (OValue w)) false) /\
  ((w = VNone \/ exists x, w = VUnavailable x) -> says (compare op o msg name v (OValue w)) false) /\
  (v_value v <> VNone -> (forall x, v_value v <> VUnavailable x) -> w <> VNone -> (forall x, w <> VUnavailable x) ->
     compare op o msg name v (OValue w) = op o (v_value v) w).
Proof.
  intros op o msg name v w. unfold compare, is_okay, says. split; [|split].
  - intros [->|[x ->]]; reflexivity.
  - destruct (okay_value (v_value v)); [|reflexivity]. intros [->|[x ->]]; reflexivity.
  - intros A B C D. destruct (v_value v); try contradiction; try (destruct w; try contradiction; try reflexivity; exfalso; eapply D; reflexivity). exfalso; eapply B; reflexivity.
Qed.
Print Assumptions C37_compare.

Theorem C37_headers : forall op o msg name v msg' name',
  (o = OpEq -> (compare op o msg name v (OHeader msg' name') = Truth true <-> msg = msg' /\ same_name name name')) /\
  (o = OpNe -> (compare op o msg name v (OHeader msg' name') = Truth true <-> ~ (msg = msg' /\ same_name name name'))) /\
  (o <> OpEq -> o <> OpNe -> compare op o msg name v (OHeader msg' name') = TypeError).
Proof.
  intros op o msg name v msg' name'.
  assert (X : Nat.eqb msg msg' && ci_eq name name' = true <-> msg = msg' /\ same_name name name').
  { rewrite andb_true_iff, Nat.eqb_eq, ci_eq_lower, same_name_lower. reflexivity. }
  split; [|split].
  - intros ->. cbn. rewrite <- X. destruct (Nat.eqb msg msg' && ci_eq name name'); split; congruence.
  - intros ->. cbn. rewrite <- X. destruct (Nat.eqb msg msg' && ci_eq name name'); cbn; split; congruence.
  - intros A B. destruct o; try contradiction; reflexivity.
Qed.
Print Assumptions C37_headers.

(** C37.  A single-valued or unknown header that is absent has no value, and a
    single-valued header whose last entry cannot be parsed has a malformed one. *)
Theorem C37_absent : forall read m name i v op o w,
  known_as i name -> hk_rule i = Some RSingle -> view_is read m name v ->
  (all_usable m name [] -> says (compare op o 0 name v (OValue w)) false) /\
  (forall us p e x, all_usable m name (us ++ [(p, e)]) -> hk_syntax i = Some x -> read x (e_value e) = None ->
     says (compare op o 0 name v (OValue w)) false).
Proof.
  intros read m name i v op o w K R V. split.
  - intro U. destruct (C34_single K R U V) as [A _]. destruct (A eq_refl) as [_ E]. apply (proj1 (C37_compare op o 0 name v w)). now left.
  - intros us p e x U Sx Rx. destruct (C34_single K R U V) as [_ [A _]]. destruct (A us p e eq_refl) as [_ E]. apply (proj1 (C37_compare op o 0 name v w)). right.
    inversion E as [H1 H2|j y u cs K' Sy Ry|j y K' Sy Ry H2].
    + destruct (H1 i x K Sx).
    + rewrite (known_as_unique K' K), Sx in Sy. injection Sy as <-. congruence.
    + eauto.
Qed.
Print Assumptions C37_absent.

(** As documented, this would hold for all headers; but a list-valued header
    that is absent is an empty list, and one that is malformed is a list too.
    So they compare as different from everything else. *)
Theorem C37_absent_list_refuted : forall op, (forall a b, a <> b -> op OpNe a b = Truth true) ->
  exists name i, known_as i name /\ hk_rule i = Some RMulti /\
    (forall read m v, all_usable m name [] -> view_is read m name v -> compare op OpNe 0 name v (OValue (VStr (s "x"))) = Truth true) /\
    (forall read m v p e x, all_usable m name [(p, e)] -> hk_syntax i = Some x -> read x (e_value e) = None -> view_is read m name v ->
       compare op OpNe 0 name v (OValue (VStr (s "x"))) = Truth true).
Proof.
  intros op N. assert (X : exists i, header_of (s "Vary") = Some i /\ hk_rule i = Some RMulti) by (eexists; vm_compute; split; reflexivity).
  destruct X as [i [H R]]. apply known_as_iff in H. exists (s "Vary"), i. split; [exact H|]. split; [exact R|]. split.
  - intros read m v U V. destruct (C35_multi H R U V) as [_ [vs [F [A _]]]]. inversion F; subst. specialize (A [] (Forall2_nil _)).
    unfold compare, is_okay. rewrite A. cbn. apply N. discriminate.
  - intros read m v p e x U Sx Rx V. destruct (C35_multi H R U V) as [_ [vs [F [A _]]]]. inversion F as [|? u ? ? E F']; subst. inversion F'; subst. cbn [snd] in E.
    inversion E as [H1 H2|j y u' cs K' Sy Ry|j y K' Sy Ry H2]; subst.
    + destruct (H1 i x H Sx).
    + rewrite (known_as_unique K' H), Sx in Sy. injection Sy as <-. congruence.
    + specialize (A [[VUnavailable (VBytes (e_value e))]] (Forall2_cons _ _ (contributes_malformed _) (Forall2_nil _))).
      unfold compare, is_okay. rewrite A. cbn. apply N. discriminate.
Qed.
Print Assumptions C37_absent_list_refuted.

Example C37_example : exists v, view_is toy_read age_message (s "date") v /\ v_value v = VNone /\
  compare (fun _ _ _ => Truth true) OpNe 0 (s "date") v (OValue (VInt 5)) = Truth false.
Proof. eexists. split; [apply view_is_iff; exists SingleView; split; [vm_compute; reflexivity|reflexivity]|]. vm_compute. auto. Qed.

(** ** C62: delimiters in quoted strings *)

(** Text [x] occurs in a value: it is the value, or it occurs in an element of
    a list or tuple, in the text or a field of an object, or in a parameter. *)
Inductive text_in (x : str) : val -> Prop :=
| in_text : text_in x (VStr x)
| in_list l v : In v l -> text_in x v -> text_in x (VList l)
| in_tuple l v : In v l -> text_in x v -> text_in x (VTuple l)
| in_object c l v : In v l -> text_in x v -> text_in x (VObj c l).

Fixpoint texts_spec (v : val) {struct v} : forall x, In x (texts v) <-> text_in x v.
Proof.
  assert (L : forall l : list val, (fix all (l : list val) : Prop := match l with [] => True | v :: l' => (forall x, In x (texts v) <-> text_in x v) /\ all l' end) l ->
     forall x, In x (flat_map texts l) <-> exists v, In v l /\ text_in x v).
  { clear. induction l as [|w l IH]; intros H x; cbn.
    - split; [intros []|intros [? [[] _]]].
    - destruct H as [H1 H2]. rewrite in_app_iff, (IH H2), H1. split.
      + intros [H|[v [A B]]]; eauto.
      + intros [v [[->|A] B]]; eauto. }
  destruct v as [y|y| | |b|z|y|l|l|c l|u|]; intro x; cbn [texts]; try (solve [split; [intros []|intro H; inversion H]]).
  - split; [intros [<-|[]]; constructor|]. intro H. inversion H. now left.
  - rewrite L by (induction l as [|w l IH]; [exact I|split; [apply texts_spec|exact IH]]). split; [intros [v [A B]]; econstructor; eauto|intro H; inversion H; eauto].
  - rewrite L by (induction l as [|w l IH]; [exact I|split; [apply texts_spec|exact IH]]). split; [intros [v [A B]]; econstructor; eauto|intro H; inversion H; eauto].
  - rewrite L by (induction l as [|w l IH]; [exact I|split; [apply texts_spec|exact IH]]). split; [intros [v [A B]]; econstructor; eauto|intro H; inversion H; eauto].
Qed.

(** C62.  A comma (1299) or a semicolon (1300) inside a parsed text is reported
    for the entry where it is, exactly in the headers that are marked so. *)
Theorem C62_delimiters : forall read m name i us v p, known_as i name -> hk_rule i = Some RSingle \/ hk_rule i = Some RMulti ->
  all_usable m name us -> view_is read m name v ->
  (In (1299%N, [(s "entry", AEntry p)]) (v_notices v) <->
     hk_quoted_comma_bad i = true /\ exists e x w cs t, In (p, e) us /\ hk_syntax i = Some x /\ read x (e_value e) = Some (w, cs) /\ text_in t w /\ In 44%N t) /\
  (In (1300%N, [(s "entry", AEntry p)]) (v_notices v) <->
     hk_quoted_semicolon_bad i = true /\ exists e x w cs t, In (p, e) us /\ hk_syntax i = Some x /\ read x (e_value e) = Some (w, cs) /\ text_in t w /\ In 59%N t).
Proof.
  intros read m name i us v p K R U V. apply view_is_iff in V. destruct V as [c [C ->]].
  assert (E : us = filter (kept name) (enumerate m name)) by (eapply all_usable_unique; [exact U|apply kept_usable]).
  pose proof (class_of_rule C) as X. unfold rule_for in X. rewrite (proj1 (known_as_iff i name) K) in X.
  assert (PL : forall q w, process_parsed read c q w = (w, [])).
  { intros q w. destruct R as [R|R]; rewrite R in X; subst c; reflexivity. }
  assert (ex : forall (c : N) t, existsb (N.eqb c) t = true <-> In c t).
  { intros d t. rewrite existsb_exists. split; [intros [y [A B]]; apply N.eqb_eq in B; now subst|intro H; exists d; split; [exact H|apply N.eqb_refl]]. }
  assert (Fl : forall f, flag_of f name = f i) by (intro f; unfold flag_of; now rewrite (proj1 (known_as_iff i name) K)).
  assert (Sy : syntax_for name = hk_syntax i) by (unfold syntax_for; now rewrite (proj1 (known_as_iff i name) K)).
  assert (CN : forall k, k = 1299%N \/ k = 1300%N -> ~ In (k, [(s "entry", AEntry p)]) (snd (combine_entries c name us (map (fun x => fst (read_entry read c name (fst x) (snd x))) us)))).
  { intros k Hk. assert (k <> 1013%N) by (destruct Hk; subst; discriminate). destruct R as [R|R]; rewrite R in X; subst c; cbn [combine_entries].
    - unfold parse_single. repeat match goal with |- context [rev ?l] => destruct (rev l) end; cbn [snd]; try (intros []; fail). destruct (Nat.ltb 1 (List.length us)); intros I; [destruct I as [I|[]]; injection I; congruence|destruct I].
    - unfold parse_multi. destruct (filter _ (map _ us)); [intros []|]. destruct (_ && _); cbn [snd]; intros I; [destruct I|destruct I as [I|[]]; injection I; congruence]. }
  assert (G : forall k, (k = 1299%N \/ k = 1300%N) -> (In (k, [(s "entry", AEntry p)]) (v_notices (parse_view read c m name)) <->
     exists e x w cs, In (p, e) us /\ hk_syntax i = Some x /\ read x (e_value e) = Some (w, cs) /\ is_unavailable w = false /\ In (k, [(s "entry", AEntry p)]) (check_quoted_delims name p w))).
  { intros k Hk. unfold parse_view. rewrite pre_parse_eq, <- E. specialize (CN k Hk). destruct (combine_entries c name us _) as [[es' v'] ns']. cbn [v_notices snd] in *.
    rewrite in_app_iff, in_flat_map. split.
    - intros [[[q e] [I1 I2]]|I]; [|contradiction]. destruct (kept name (q, e)) eqn:Kp; cbn [fst snd] in I2.
      + unfold read_entry in I2. rewrite Sy in I2. destruct (hk_syntax i) as [x|]; [|destruct I2]. destruct (read x (e_value e)) as [[w cs]|] eqn:Rd; [|destruct I2 as [I2|[]]; discriminate].
        assert (NP : ~ In (k, [(s "entry", AEntry p)]) (map (placed q []) cs)).
        { intro J. apply in_map_iff in J. destruct J as [y [J _]]. unfold placed in J. discriminate. }
        destruct (is_unavailable w) eqn:Un; [contradiction|]. rewrite PL in I2. cbn [snd app] in I2. apply in_app_iff in I2. destruct I2 as [I2|I2]; [contradiction|].
        assert (q = p).
        { unfold check_quoted_delims in I2. apply in_flat_map in I2. destruct I2 as [t [_ I2]]. apply in_app_iff in I2.
          destruct (_ && existsb (N.eqb 44) t), (_ && existsb (N.eqb 59) t); cbn in I2; repeat match goal with H : _ \/ _ |- _ => destruct H end; try contradiction; congruence. }
        subst q. exists e, x, w, cs. split; [rewrite E; apply filter_In; auto|]. auto.
      + destruct I2 as [I2|[]]. injection I2 as I2 _. destruct Hk; congruence.
    - intros [e [x [w [cs [I1 [Sx [Rd [Un I2]]]]]]]]. left. exists (p, e). rewrite E in I1. apply filter_In in I1. destruct I1 as [I1 Kp]. split; [exact I1|]. rewrite Kp.
      cbn [fst snd]. unfold read_entry. rewrite Sy, Sx, Rd, Un, PL. cbn [snd app]. apply in_app_iff. now right. }
  assert (Un : forall t w, text_in t w -> is_unavailable w = false) by (intros t w H; destruct H; reflexivity).
  assert (CQ : forall w, (In (1299%N, [(s "entry", AEntry p)]) (check_quoted_delims name p w) <-> hk_quoted_comma_bad i = true /\ exists t, text_in t w /\ In 44%N t) /\
     (In (1300%N, [(s "entry", AEntry p)]) (check_quoted_delims name p w) <-> hk_quoted_semicolon_bad i = true /\ exists t, text_in t w /\ In 59%N t)).
  { intro w. unfold check_quoted_delims. rewrite !Fl, !in_flat_map. split.
    - split.
      + intros [t [It I]]. apply texts_spec in It. apply in_app_iff in I.
        destruct (hk_quoted_comma_bad i && existsb (N.eqb 44) t) eqn:A; [apply andb_true_iff in A; destruct A as [A1 A2]; apply ex in A2; eauto|].
        exfalso. destruct (_ && existsb (N.eqb 59) t); destruct I as [I|I]; try destruct I as [I|I]; try contradiction; discriminate.
      + intros [A [t [It J]]]. exists t. split; [now apply texts_spec|]. apply ex in J. rewrite A, J. now left.
    - split.
      + intros [t [It I]]. apply texts_spec in It. apply in_app_iff in I.
        destruct (hk_quoted_semicolon_bad i && existsb (N.eqb 59) t) eqn:A; [apply andb_true_iff in A; destruct A as [A1 A2]; apply ex in A2; eauto|].
        exfalso. destruct (_ && existsb (N.eqb 44) t); destruct I as [I|I]; try destruct I as [I|I]; try contradiction; discriminate.
      + intros [A [t [It J]]]. exists t. split; [now apply texts_spec|]. apply ex in J. rewrite A, J. apply in_app_iff. right. now left. }
  split.
  - rewrite (G 1299%N (or_introl eq_refl)). split.
    + intros [e [x [w [cs [I1 [Sx [Rd [_ I2]]]]]]]]. apply CQ in I2. destruct I2 as [A [t [B D]]]. split; [exact A|]. exists e, x, w, cs, t. auto.
    + intros [A [e [x [w [cs [t [I1 [Sx [Rd [B D]]]]]]]]]]. exists e, x, w, cs. repeat split; auto; [now apply Un with t|]. apply CQ. eauto.
  - rewrite (G 1300%N (or_intror eq_refl)). split.
    + intros [e [x [w [cs [I1 [Sx [Rd [_ I2]]]]]]]]. apply CQ in I2. destruct I2 as [A [t [B D]]]. split; [exact A|]. exists e, x, w, cs, t. auto.
    + intros [A [e [x [w [cs [t [I1 [Sx [Rd [B D]]]]]]]]]]. exists e, x, w, cs. repeat split; auto; [now apply Un with t|]. apply CQ. eauto.
Qed.
Print Assumptions C62_delimiters.

Example C62_example : exists i v, known_as i (s "Via") /\ hk_rule i = Some RMulti /\ hk_quoted_comma_bad i = true /\
  view_is (fun _ w => Some (VList [VTuple [VNone; VStr w]], [])) (Entries [Entry (s "via") (s "1.1 a (x,y)")] []) (s "Via") v /\ map fst (v_notices v) = [1299%N].
Proof.
  assert (X : exists i, header_of (s "Via") = Some i /\ hk_rule i = Some RMulti /\ hk_quoted_comma_bad i = true) by (eexists; vm_compute; repeat split; reflexivity).
  destruct X as [i [H [R Q]]]. exists i. eexists. split; [now apply known_as_iff|]. split; [exact R|]. split; [exact Q|].
  split; [apply view_is_iff; exists MultiView; split; [vm_compute; reflexivity|reflexivity]|]. vm_compute. reflexivity.
Qed.

(** ** C63: repeated parameters in Forwarded *)

(** The list has name [n] at least twice. *)
Definition repeated (n : str) (l : list str) : Prop :=
  exists i j a b, i < j /\ nth_error l i = Some a /\ nth_error l j = Some b /\ same_name n a /\ same_name n b.

Lemma dup_names_spec l : forall seen dup n, (forall x, In x dup -> In x seen) ->
  ((exists d, In d (dup_names seen dup l) /\ lower d = lower n) <->
   (~ exists d, In d dup /\ lower d = lower n) /\
   (((exists x, In x seen /\ lower x = lower n) /\ exists j b, nth_error l j = Some b /\ lower b = lower n) \/
    (exists i j a b, i < j /\ nth_error l i = Some a /\ nth_error l j = Some b /\ lower a = lower n /\ lower b = lower n))).
Proof.
  induction l as [|x l IH]; intros seen dup n Sub; cbn [dup_names].
  - split; [intros [d [[] _]]|]. intros [_ [[_ [j [b [H _]]]]|[i [j [a [b [_ [H _]]]]]]]]; [destruct j; discriminate|destruct i; discriminate].
  - assert (S1 : existsb (ci_eq x) seen = true <-> exists y, In y seen /\ lower y = lower x).
    { rewrite existsb_exists. setoid_rewrite ci_eq_lower. split; intros [y [A B]]; exists y; split; congruence. }
    assert (D1 : existsb (ci_eq x) dup = true <-> exists y, In y dup /\ lower y = lower x).
    { rewrite existsb_exists. setoid_rewrite ci_eq_lower. split; intros [y [A B]]; exists y; split; congruence. }
    assert (N0 : forall (Q : str -> Prop), (exists j b, nth_error (x :: l) j = Some b /\ Q b) <-> Q x \/ exists j b, nth_error l j = Some b /\ Q b).
    { intro Q. split.
      - intros [[|j] [b [H1 H2]]]; cbn in H1; [injection H1 as <-; auto|right; eauto].
      - intros [H|[j [b [H1 H2]]]]; [exists 0, x; auto|exists (S j), b; auto]. }
    assert (N2 : (exists i j a b, i < j /\ nth_error (x :: l) i = Some a /\ nth_error (x :: l) j = Some b /\ lower a = lower n /\ lower b = lower n) <->
                 (lower x = lower n /\ exists j b, nth_error l j = Some b /\ lower b = lower n) \/
                 exists i j a b, i < j /\ nth_error l i = Some a /\ nth_error l j = Some b /\ lower a = lower n /\ lower b = lower n).
    { split.
      - intros [i [j [a [b [Lt [H1 [H2 [H3 H4]]]]]]]]. destruct j as [|j]; [lia|]. destruct i as [|i]; cbn in H1, H2.
        + injection H1 as <-. left. eauto.
        + right. exists i, j, a, b. repeat split; auto. lia.
      - intros [[A [j [b [B D]]]]|[i [j [a [b [Lt [H1 [H2 [H3 H4]]]]]]]]].
        + exists 0, (S j), x, b. repeat split; auto. lia.
        + exists (S i), (S j), a, b. repeat split; auto. lia. }
    rewrite N0, N2. destruct (existsb (ci_eq x) seen) eqn:Es.
    + pose proof (proj1 S1 eq_refl) as [y [Y1 Y2]]. destruct (existsb (ci_eq x) dup) eqn:Ed.
      * pose proof (proj1 D1 eq_refl) as [z [Z1 Z2]]. rewrite IH by exact Sub. split.
        -- intros [A B]. split; [exact A|]. tauto.
        -- intros [A B]. split; [exact A|]. destruct B as [[B [E|B']]|[[E _]|B]]; try tauto; exfalso; apply A; exists z; split; auto; congruence.
      * assert (ND : ~ exists y, In y dup /\ lower y = lower x) by (intro Q; apply D1 in Q; discriminate).
        assert (Sub' : forall z, In z (x :: dup) -> In z seen \/ z = x) by (intros z [<-|Z]; auto).
        destruct (str_eqb (lower x) (lower n)) eqn:E.
        -- apply str_eqb_eq in E. split.
           ++ intros _. split; [intros [d [D D']]; apply ND; exists d; split; congruence|]. left. split; [exists y; split; congruence|now left].
           ++ intros _. exists x. split; [now left|exact E].
        -- assert (NE : lower x <> lower n) by (intro Q; rewrite Q, str_eqb_refl in E; discriminate).
           assert (Hs : forall z, In z (y :: dup) -> In z seen) by (intros z [<-|Z]; auto).
           (* the name put in [dup] is equal to one seen *)
           assert (P : (exists d, In d (dup_names seen (x :: dup) l) /\ lower d = lower n) <-> (exists d, In d (dup_names seen (y :: dup) l) /\ lower d = lower n)).
           { assert (Q : forall l D1 D2, (forall z, existsb (ci_eq z) D1 = existsb (ci_eq z) D2) -> dup_names seen D1 l = dup_names seen D2 l).
             { clear. intro l. revert seen. induction l as [|a l IH]; intros seen D1 D2 H; cbn; [reflexivity|]. rewrite H. destruct (existsb (ci_eq a) seen).
               - destruct (existsb (ci_eq a) D2); [now apply IH|]. f_equal. apply IH. intro z. cbn. now rewrite H.
               - now apply IH. }
             rewrite (Q l (x :: dup) (y :: dup)); [reflexivity|]. intro z. cbn. f_equal. apply ci_eq_right. congruence. }
           assert (I2 : (exists d, In d (x :: dup_names seen (x :: dup) l) /\ lower d = lower n) <-> exists d, In d (dup_names seen (x :: dup) l) /\ lower d = lower n).
           { split; intros [d [A B]]; [destruct A as [<-|A]; [contradiction|eauto]|exists d; split; [now right|exact B]]. }
           rewrite I2, P, (IH seen (y :: dup) n Hs). split.
           ++ intros [A B]. split; [intros [d [D D']]; apply A; exists d; split; [now right|exact D']|]. tauto.
           ++ intros [A B]. split; [intros [d [[<-|D] D']]; [congruence|apply A; eauto]|]. tauto.
    + assert (NS : ~ exists y, In y seen /\ lower y = lower x) by (intro Q; apply S1 in Q; discriminate).
      assert (Sub' : forall z, In z dup -> In z (x :: seen)) by (intros z Z; right; auto). rewrite (IH (x :: seen) dup n Sub'). split.
      * intros [A B]. split; [exact A|]. destruct B as [[[y [[<-|Y] Y']] B]|B]; [right; left; auto|left; split; eauto|tauto].
      * intros [A B]. split; [exact A|]. destruct B as [[[y [Y Y']] [E|B]]|[[E B]|B]].
        -- exfalso. apply NS. exists y. split; congruence.
        -- left. split; [exists y; split; [now right|exact Y']|exact B].
        -- left. split; [exists x; split; [now left|exact E]|exact B].
        -- tauto.
Qed.

(** The names of the parameters of a forwarded-element. *)
Definition names_of (elem : val) (l : list str) : Prop :=
  exists pairs, elem = VList pairs /\ Forall2 (fun pr n => exists c a, pr = parametrized (VObj c [VStr n]) a) pairs l.
(** C63.  In a Forwarded header, 1296 is reported for a parameter exactly when
    some element of the entry has it twice; 1297 exactly when there are several
    elements, each with one parameter, and no parameter occurs twice. *)
Theorem C63_forwarded : forall p elements ls, Forall2 names_of elements ls ->
  (forall n, (exists d, same_name d n /\ In (1296%N, [(s "entry", AEntry p); (s "param", AVal (VObj (s "ForwardedParam") [VStr d]))]) (check_elements p elements)) <->
     exists l, In l ls /\ repeated n l) /\
  ((exists ctx, In (1297%N, ctx) (check_elements p elements)) <->
     1 < List.length ls /\ Forall (fun l => List.length l = 1) ls /\ forall n, ~ repeated n (List.concat ls)).
Proof.
  intros p elements ls F.
  assert (EN : Forall2 (fun el l => map snd (element_names el) = l) elements ls).
  { induction F as [|el l els ls [pairs [-> P]] F IH]; constructor; [|exact IH]. cbn. rewrite map_map.
    clear - P. induction P as [|pr n pairs l [c [a ->]] P IH]; [reflexivity|]. cbn. now rewrite IH. }
  assert (RP : forall n l, repeated n l <-> exists i j a b, i < j /\ nth_error l i = Some a /\ nth_error l j = Some b /\ lower a = lower n /\ lower b = lower n).
  { intros n l. unfold repeated. setoid_rewrite same_name_lower. split; intros [i [j [a [b [A [B [C [D E]]]]]]]]; exists i, j, a, b; repeat split; congruence || assumption. }
  assert (DS : forall n l, (exists d, In d (dup_names [] [] l) /\ lower d = lower n) <-> repeated n l).
  { intros n l. rewrite (dup_names_spec l n (seen := []) (dup := [])) by auto. rewrite RP. split.
    - intros [_ [[[x [[] _]] _]|H]]; exact H.
    - intro H. split; [intros [d [[] _]]|now right]. }
  assert (LE : List.length elements = List.length ls) by (clear - EN; induction EN; cbn; lia).
  unfold check_elements. split.
  - intro n. setoid_rewrite in_app_iff. split.
    + intros [d [Sd [I|I]]].
      * apply in_flat_map in I. destruct I as [el [I1 I]]. apply in_map_iff in I. destruct I as [d' [E I]].
        assert (d' = d) by congruence. subst d'.
        assert (X : exists l, In l ls /\ map snd (element_names el) = l).
        { clear - EN I1. induction EN as [|e l es ls H EN IH]; [destruct I1|]. destruct I1 as [->|I1]; [exists l; split; [now left|exact H]|]. destruct (IH I1) as [l' [A B]]. exists l'. split; [now right|exact B]. }
        destruct X as [l [Il El]]. exists l. split; [exact Il|]. apply DS. rewrite El in I. exists d. split; [exact I|now apply same_name_lower].
      * destruct (_ && _); [|destruct I]. destruct (dup_names [] [] _); [destruct I as [I|[]]; discriminate|destruct I].
    + intros [l [Il R]]. apply DS in R. destruct R as [d [D E]]. exists d. split; [now apply same_name_lower|]. left. apply in_flat_map.
      assert (X : exists el, In el elements /\ map snd (element_names el) = l).
      { clear - EN Il. induction EN as [|e l' es ls H EN IH]; [destruct Il|]. destruct Il as [->|Il]; [exists e; split; [now left|exact H]|]. destruct (IH Il) as [el [A B]]. exists el. split; [now right|exact B]. }
      destruct X as [el [Iel El]]. exists el. split; [exact Iel|]. rewrite El. apply in_map_iff. exists d. auto.
  - assert (FM : flat_map (fun elem => map snd (element_names elem)) elements = List.concat ls).
    { clear - EN. induction EN as [|e l es ls H EN IH]; [reflexivity|]. cbn. now rewrite H, IH. }
    assert (FB : forallb (fun elem => Nat.eqb (List.length (element_names elem)) 1) elements = true <-> Forall (fun l => List.length l = 1) ls).
    { clear - EN. induction EN as [|e l es ls H EN IH]; [split; [constructor|reflexivity]|]. cbn. rewrite andb_true_iff, Nat.eqb_eq, IH.
      assert (Q : List.length (element_names e) = List.length l) by (rewrite <- H, map_length; reflexivity). rewrite Q. split; [intros [A B]; now constructor|intro A; inversion A; auto]. }
    rewrite LE, FM. setoid_rewrite in_app_iff. split.
    + intros [ctx [I|I]].
      * apply in_flat_map in I. destruct I as [el [I1 I]]. apply in_map_iff in I. destruct I as [d' [E I]]. discriminate.
      * destruct (Nat.ltb 1 (List.length ls)) eqn:L1; [|destruct I]. cbn [andb] in I. destruct (forallb _ elements) eqn:L2; [|destruct I].
        apply Nat.ltb_lt in L1. split; [exact L1|]. split; [now apply FB|]. intros n R. apply DS in R. destruct R as [d [D _]]. destruct (dup_names [] [] (List.concat ls)); [destruct D|destruct I].
    + intros [L1 [L2 L3]]. apply Nat.ltb_lt in L1. apply FB in L2. rewrite L1, L2. cbn [andb]. destruct (dup_names [] [] (List.concat ls)) as [|d ds] eqn:Ed.
      * eexists. right. left. reflexivity.
      * exfalso. apply (L3 d). apply DS. exists d. rewrite Ed. split; [now left|reflexivity].
Qed.
Print Assumptions C63_forwarded.

Example C63_example : Forall2 names_of
  [VList [parametrized (VObj (s "ForwardedParam") [VStr (s "for")]) (VStr (s "a")); parametrized (VObj (s "ForwardedParam") [VStr (s "FOR")]) (VStr (s "b"))]] [[s "for"; s "FOR"]] /\
  repeated (s "For") [s "for"; s "FOR"].
Proof.
  split; [|exists 0, 1, (s "for"), (s "FOR"); split; [lia|]; split; [reflexivity|]; split; [reflexivity|]; split; apply same_name_lower; reflexivity].
  constructor; [|constructor]. eexists. split; [reflexivity|]. repeat constructor; eexists; eexists; reflexivity.
Qed.
