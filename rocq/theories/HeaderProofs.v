(** Lemmas about header views. *)
From Coq Require Import ZifyBool ZifyNat ZifyN String Sorted.
From Verif Require Import Base Earley Grammar Syntax Actions Structure Known Header.
Open Scope nat_scope.
Open Scope list_scope.
Unset Strict Implicit.

Lemma ci_eq_lower a b : ci_eq a b = true <-> lower a = lower b.
Proof. unfold ci_eq. apply str_eqb_eq. Qed.
Lemma ci_eq_left a b c : lower a = lower b -> ci_eq a c = ci_eq b c.
Proof. unfold ci_eq. now intros ->. Qed.
Lemma ci_eq_right a b c : lower a = lower b -> ci_eq c a = ci_eq c b.
Proof. unfold ci_eq. now intros ->. Qed.
Lemma ci_eq_refl a : ci_eq a a = true.
Proof. now apply ci_eq_lower. Qed.
Lemma ci_eq_false a b : ci_eq a b = false <-> lower a <> lower b.
Proof.
  split.
  - intros H E. apply ci_eq_lower in E. congruence.
  - intro H. destruct (ci_eq a b) eqn:E; [|reflexivity]. apply ci_eq_lower in E. contradiction.
Qed.

(** ** Knowledge *)

Lemma find_header_same t a b : lower a = lower b -> find_header t a = find_header t b.
Proof. intro E. induction t as [|i t IH]; cbn; [reflexivity|]. rewrite (@ci_eq_right a b (hk_key i) E). now rewrite IH. Qed.
Lemma header_of_same a b : lower a = lower b -> header_of a = header_of b.
Proof. apply find_header_same. Qed.
Lemma find_special_same t a b : lower a = lower b -> find_special t a = find_special t b.
Proof. intro E. induction t as [|[k c] t IH]; cbn; [reflexivity|]. rewrite (@ci_eq_right a b k E). now rewrite IH. Qed.
Lemma syntax_for_same a b : lower a = lower b -> syntax_for a = syntax_for b.
Proof. unfold syntax_for. now intros ->%header_of_same. Qed.
Lemma rule_for_same a b : lower a = lower b -> rule_for a = rule_for b.
Proof. unfold rule_for. now intros ->%header_of_same. Qed.
Lemma flag_of_same f a b : lower a = lower b -> flag_of f a = flag_of f b.
Proof. unfold flag_of. now intros ->%header_of_same. Qed.
Lemma class_of_same a b : lower a = lower b -> class_of a = class_of b.
Proof. intro E. unfold class_of. now rewrite (find_special_same _ E), (rule_for_same E). Qed.

Lemma find_header_some t name i : find_header t name = Some i -> In i t /\ lower (hk_key i) = lower name.
Proof.
  induction t as [|j t IH]; cbn; [discriminate|]. destruct (ci_eq (hk_key j) name) eqn:E; intro H.
  - injection H as <-. apply ci_eq_lower in E. auto.
  - destruct (IH H). auto.
Qed.
Lemma find_header_in t : NoDup (map (fun i => lower (hk_key i)) t) -> forall i name, In i t -> lower (hk_key i) = lower name -> find_header t name = Some i.
Proof.
  induction t as [|j t IH]; intros ND i name I E; [destruct I|]. cbn. inversion ND as [|? ? N ND']; subst.
  destruct I as [->|I].
  - now rewrite (proj2 (ci_eq_lower (hk_key i) name) E).
  - destruct (ci_eq (hk_key j) name) eqn:C; [|now apply IH]. apply ci_eq_lower in C. exfalso. apply N.
    rewrite C, <- E. now apply (in_map (fun i => lower (hk_key i))).
Qed.
Fixpoint nodupb (l : list str) : bool := match l with [] => true | x :: l' => negb (existsb (str_eqb x) l') && nodupb l' end.
Lemma nodupb_ok l : nodupb l = true -> NoDup l.
Proof.
  induction l as [|x l IH]; cbn; [constructor|]. rewrite andb_true_iff, negb_true_iff. intros [A B]. constructor; [|auto].
  intro I. assert (X : existsb (str_eqb x) l = true) by (apply existsb_exists; exists x; split; [exact I|apply str_eqb_refl]). congruence.
Qed.
Lemma header_keys_distinct : NoDup (map (fun i => lower (hk_key i)) header_table).
Proof. apply nodupb_ok. vm_compute. reflexivity. Qed.

Lemma find_special_some t name c : find_special t name = Some c -> exists k, In (k, c) t /\ lower k = lower name.
Proof.
  induction t as [|[k d] t IH]; cbn; [discriminate|]. destruct (ci_eq k name) eqn:E; intro H.
  - injection H as <-. apply ci_eq_lower in E. exists k. auto.
  - destruct (IH H) as [k' [A B]]. exists k'. auto.
Qed.

Lemma specials_have_rule : forall k c, In (k, c) special_cases -> rule_for k = Some RSpecial.
Proof.
  assert (X : forallb (fun kc => match rule_for (fst kc) with Some RSpecial => true | _ => false end) special_cases = true) by (vm_compute; reflexivity).
  rewrite forallb_forall in X. intros k c I. specialize (X _ I). cbn in X. destruct (rule_for k) as [[]|]; congruence.
Qed.
Lemma special_rules_have_class : forall i, In i header_table -> hk_rule i = Some RSpecial -> exists c, find_special special_cases (hk_key i) = Some c.
Proof.
  assert (X : forallb (fun i => match hk_rule i with Some RSpecial => match find_special special_cases (hk_key i) with Some _ => true | None => false end | _ => true end) header_table = true)
    by (vm_compute; reflexivity).
  rewrite forallb_forall in X. intros i I R. specialize (X _ I). rewrite R in X. destruct (find_special special_cases (hk_key i)) as [c|]; [now exists c|discriminate].
Qed.

Lemma class_of_total name : exists c, class_of name = Some c.
Proof.
  unfold class_of. destruct (find_special special_cases name) as [c|] eqn:E.
  - destruct (find_special_some E) as [k [I L]]. rewrite <- (rule_for_same L), (specials_have_rule I). now exists (SpecialView c).
  - destruct (rule_for name) as [[]|] eqn:R; try (eexists; reflexivity). exfalso.
    unfold rule_for, header_of in R. destruct (find_header header_table name) as [i|] eqn:F; [|discriminate].
    destruct (find_header_some F) as [I L]. destruct (special_rules_have_class I R) as [c H]. rewrite (find_special_same _ L) in H. congruence.
Qed.
Lemma class_of_rule name c : class_of name = Some c ->
  match rule_for name with
  | None => c = UnknownView | Some RSingle => c = SingleView | Some RMulti => c = MultiView
  | Some RSpecial => exists k sp, c = SpecialView sp /\ In (k, sp) special_cases /\ lower k = lower name
  end.
Proof.
  unfold class_of. destruct (find_special special_cases name) as [sp|] eqn:E, (rule_for name) as [[]|]; try discriminate; intro H; injection H as <-; try reflexivity.
  destruct (find_special_some E) as [k [I L]]. exists k, sp. auto.
Qed.

(** ** Enumeration *)

Lemma number_nth {A} (l : list A) : forall k i x, In (i, x) (number k l) <-> k <= i /\ nth_error l (i - k) = Some x.
Proof.
  induction l as [|y l IH]; intros k i x; cbn [number In].
  - split; [intros []|]. intros [_ H]. now destruct (i - k).
  - rewrite IH. split.
    + intros [H|[H1 H2]].
      * injection H as <- <-. rewrite Nat.sub_diag. split; [lia|reflexivity].
      * split; [lia|]. replace (i - k) with (S (i - S k)) by lia. exact H2.
    + intros [H1 H2]. destruct (Nat.eq_dec i k) as [->|N].
      * left. rewrite Nat.sub_diag in H2. cbn in H2. congruence.
      * right. split; [lia|]. replace (i - k) with (S (i - S k)) in H2 by lia. exact H2.
Qed.
Lemma number_sorted {A} (l : list A) : forall k, StronglySorted (fun a b => fst a < fst b) (number k l).
Proof.
  induction l as [|y l IH]; intro k; cbn; constructor; [apply IH|]. rewrite Forall_forall. intros [i x] I. apply number_nth in I. cbn. lia.
Qed.
Lemma number_snd {A} (l : list A) : forall k, map snd (number k l) = l.
Proof. induction l as [|y l IH]; intro k; cbn; [reflexivity|]. now rewrite IH. Qed.
Lemma filter_sorted {A} (R : A -> A -> Prop) f l : StronglySorted R l -> StronglySorted R (filter f l).
Proof.
  induction 1 as [|x l S IH F]; cbn; [constructor|]. destruct (f x); [|exact IH]. constructor; [exact IH|].
  rewrite Forall_forall in *. intros y I. apply filter_In in I. apply F. tauto.
Qed.

Definition before (p q : place) : Prop := (fst p = false /\ fst q = true) \/ (fst p = fst q /\ snd p < snd q).
Definition before' {A} (x y : place * A) : Prop := before (fst x) (fst y).

Lemma sorted_app {A} (R : A -> A -> Prop) l1 l2 : StronglySorted R l1 -> StronglySorted R l2 -> (forall x y, In x l1 -> In y l2 -> R x y) ->
  StronglySorted R (l1 ++ l2).
Proof.
  induction 1 as [|x l S IH F]; intros S2 C; cbn; [exact S2|]. constructor.
  - apply IH; [exact S2|]. intros y z I1 I2. apply C; [now right|exact I2].
  - rewrite Forall_app. split; [exact F|]. rewrite Forall_forall. intros y I. apply C; [now left|exact I].
Qed.
Lemma sorted_map {A B} (R : A -> A -> Prop) (Q : B -> B -> Prop) (f : A -> B) l : (forall x y, R x y -> Q (f x) (f y)) ->
  StronglySorted R l -> StronglySorted Q (map f l).
Proof.
  intros C. induction 1 as [|x l S IH F]; cbn; constructor; [exact IH|]. rewrite Forall_map. eapply Forall_impl; [|exact F]. auto.
Qed.

Lemma enumerate_sorted m name : StronglySorted before' (enumerate m name).
Proof.
  unfold enumerate. apply sorted_app.
  - eapply sorted_map; [|apply filter_sorted, number_sorted]. intros x y L. right. cbn. auto.
  - eapply sorted_map; [|apply filter_sorted, number_sorted]. intros x y L. right. cbn. auto.
  - intros x y Ix Iy. apply in_map_iff in Ix. apply in_map_iff in Iy. destruct Ix as [? [<- _]], Iy as [? [<- _]]. left. auto.
Qed.
Lemma enumerate_in m name p e : In (p, e) (enumerate m name) <->
  nth_error (if fst p then trailer_entries m else header_entries m) (snd p) = Some e /\ lower name = lower (e_name e).
Proof.
  unfold enumerate. rewrite in_app_iff, !in_map_iff. destruct p as [t i]. cbn [fst snd]. split.
  - intros [[[j x] [H I]]|[[j x] [H I]]]; cbn in H; injection H as <- <- <-; apply filter_In in I; destruct I as [I N];
      apply number_nth in I; rewrite Nat.sub_0_r in I; apply ci_eq_lower in N; cbn in N; tauto.
  - intros [H N]. destruct t; [right|left]; exists (i, e); (split; [reflexivity|]); apply filter_In; (split; [apply number_nth; rewrite Nat.sub_0_r; split; [lia|exact H]|]);
      apply ci_eq_lower; exact N.
Qed.
Lemma enumerate_same m a b : lower a = lower b -> enumerate m a = enumerate m b.
Proof.
  intro E. unfold enumerate. f_equal; f_equal; apply filter_ext; intro x; unfold named; now apply ci_eq_left.
Qed.

(** ** Parsing *)

Section P.
Variable read : symbol -> str -> option (val * list vcomplaint).
Notation read_entry := (read_entry read).
Notation pre_parse := (pre_parse read).
Notation parse_view := (parse_view read).

Definition kept (name : str) (x : place * entry) : bool := negb (fst (fst x) && is_bad_for_trailer name).
Lemma pre_parse_eq c name items :
  pre_parse c name items =
  (filter (kept name) items,
   map (fun x => fst (read_entry c name (fst x) (snd x))) (filter (kept name) items),
   flat_map (fun x => if kept name x then snd (read_entry c name (fst x) (snd x)) else [(1026%N, [(s "entry", AEntry (fst x))])]) items).
Proof.
  induction items as [|[p e] items IH]; [reflexivity|]. cbn [Header.pre_parse filter flat_map]. rewrite IH.
  assert (K : kept name (p, e) = negb (fst p && is_bad_for_trailer name)) by reflexivity. rewrite K. cbn [fst snd].
  destruct (fst p && is_bad_for_trailer name); cbn [negb]; [reflexivity|].
  destruct (read_entry c name p e) as [v ns] eqn:R. cbn [map fst snd]. rewrite R. reflexivity.
Qed.

Lemma read_entry_same c a b p e : lower a = lower b -> read_entry c a p e = read_entry c b p e.
Proof.
  intro E. unfold Header.read_entry. rewrite (syntax_for_same E). destruct (syntax_for b) as [x|]; [|reflexivity].
  destruct (read x (e_value e)) as [[v cs]|]; [|reflexivity]. destruct (is_unavailable v); [reflexivity|].
  destruct (process_parsed read c p v). f_equal. f_equal. f_equal. unfold check_quoted_delims. now rewrite !(flag_of_same _ E).
Qed.
Lemma parse_view_same c m a b : lower a = lower b -> parse_view c m a = parse_view c m b.
Proof.
  intro E. unfold Header.parse_view. rewrite (enumerate_same m E), !pre_parse_eq.
  assert (K : forall x, kept a x = kept b x) by (intro x; unfold kept, is_bad_for_trailer; now rewrite (flag_of_same _ E)).
  rewrite (filter_ext _ _ K).
  assert (M : map (fun x => fst (read_entry c a (fst x) (snd x))) (filter (kept b) (enumerate m b)) = map (fun x => fst (read_entry c b (fst x) (snd x))) (filter (kept b) (enumerate m b))).
  { apply map_ext. intro x. now rewrite (@read_entry_same c a b _ _ E). }
  rewrite M.
  assert (F : flat_map (fun x => if kept a x then snd (read_entry c a (fst x) (snd x)) else [(1026%N, [(s "entry", AEntry (fst x))])]) (enumerate m b) =
              flat_map (fun x => if kept b x then snd (read_entry c b (fst x) (snd x)) else [(1026%N, [(s "entry", AEntry (fst x))])]) (enumerate m b)).
  { apply flat_map_ext. intro x. rewrite K. now rewrite (@read_entry_same c a b _ _ E). }
  rewrite F.
  assert (C : combine_entries c a = combine_entries c b).
  { unfold combine_entries. destruct c as [| | |[]]; try reflexivity; unfold parse_single, parse_multi; rewrite E; reflexivity. }
  now rewrite C.
Qed.

(** The value of an entry does not depend on where the entry is. *)
Lemma process_pair_place ci t p q n a : fst (process_pair read ci t p n a) = fst (process_pair read ci t q n a).
Proof.
  unfold process_pair. destruct a; repeat match goal with |- context [match ?x with _ => _ end] => destruct x; try reflexivity end.
Qed.
Lemma process_arguments_place ci t p q pr : fst (process_arguments read ci t p pr) = fst (process_arguments read ci t q pr).
Proof. unfold process_arguments. destruct (unpack2 pr) as [[n a]|]; [apply process_pair_place|reflexivity]. Qed.
Lemma process_directive_place p q pr : fst (process_directive read p pr) = fst (process_directive read q pr).
Proof.
  unfold process_directive. destruct (unpack2 pr) as [[n a]|]; [|reflexivity]. destruct a; try reflexivity; [apply process_pair_place|].
  destruct l as [|[] [|y [|]]]; try reflexivity.
  pose proof (process_pair_place true cache_directive_table p q n y) as H.
  destruct (process_pair read true cache_directive_table p n y), (process_pair read true cache_directive_table q n y). exact H.
Qed.
Lemma each_place (f g : val -> val * list notice) l : (forall v, fst (f v) = fst (g v)) -> fst (each f l) = fst (each g l).
Proof.
  intro H. induction l as [|v l IH]; cbn; [reflexivity|]. specialize (H v). destruct (f v), (g v), (each f l), (each g l). cbn in *. congruence.
Qed.
Lemma each_of_place (f g : val -> val * list notice) v : (forall v, fst (f v) = fst (g v)) -> fst (each_of f v) = fst (each_of g v).
Proof.
  intro H. destruct v; try reflexivity. cbn. pose proof (each_place l H) as X. destruct (each f l), (each g l). cbn in *. congruence.
Qed.
Lemma process_parsed_place c p q v : fst (process_parsed read c p v) = fst (process_parsed read c q v).
Proof.
  destruct c as [| | |[]]; try reflexivity; cbn [process_parsed].
  - apply each_of_place. intro. apply process_directive_place.
  - apply each_of_place. intro. apply process_arguments_place.
  - assert (A : forall w, fst (process_alternative read p w) = fst (process_alternative read q w)).
    { intro w. unfold process_alternative. destruct w; try reflexivity. destruct args as [|i [|[] [|]]]; try reflexivity. destruct args as [|[] [|]]; try reflexivity.
      pose proof (@each_place (process_arguments read false alt_svc_param_table p) (process_arguments read false alt_svc_param_table q) l) as X.
      assert (Y := X (fun pr => process_arguments_place false alt_svc_param_table p q pr)).
      destruct (each (process_arguments read false alt_svc_param_table p) l), (each (process_arguments read false alt_svc_param_table q) l). cbn in *. now rewrite Y. }
    destruct v; try (apply each_of_place; exact A). destruct (str_eqb x (s "clear")); reflexivity.
  - apply each_of_place. intro w. unfold process_preference. destruct (unpack2 w) as [[pr ps]|]; [|reflexivity].
    pose proof (process_arguments_place true preference_table p q pr) as X.
    destruct (process_arguments read true preference_table p pr), (process_arguments read true preference_table q pr). cbn in *. now rewrite X.
  - apply each_of_place. intro. apply process_arguments_place.
  - assert (X : fst (each_of (each_of (process_arguments read true forwarded_param_table p)) v) = fst (each_of (each_of (process_arguments read true forwarded_param_table q)) v)).
    { apply each_of_place. intro. apply each_of_place. intro. apply process_arguments_place. }
    destruct (each_of (each_of (process_arguments read true forwarded_param_table p)) v), (each_of (each_of (process_arguments read true forwarded_param_table q)) v).
    cbn [fst] in X. subst. destruct v1; reflexivity.
Qed.
Lemma read_entry_place c name p q e : fst (read_entry c name p e) = fst (read_entry c name q e).
Proof.
  unfold Header.read_entry. destruct (syntax_for name) as [x|]; [|reflexivity]. destruct (read x (e_value e)) as [[v cs]|]; [|reflexivity].
  destruct (is_unavailable v); [reflexivity|]. pose proof (process_parsed_place c p q v) as X.
  destruct (process_parsed read c p v), (process_parsed read c q v). exact X.
Qed.
End P.
