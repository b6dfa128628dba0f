(** When two computations of the checks do the same up to where in the message
    the fields are. *)
From Coq Require Import ZifyBool ZifyNat ZifyN String Permutation.
From Verif Require Import Base Earley Grammar Syntax Actions Text Structure Known Tables Header HeaderProofs Values ChecksBase ChecksMessage ChecksRequest ChecksResponse.
Open Scope nat_scope.
Open Scope list_scope.
Unset Strict Implicit.
Local Open Scope string_scope.
Local Open Scope list_scope.

(** ** Lists that are rearranged *)

(** The same elements up to [R], in any order. *)
Definition rearranged {A} (R : A -> A -> Prop) (l l' : list A) : Prop := exists k, Permutation l k /\ Forall2 R k l'.

Section Rearranged.
Context {A : Type} (R : A -> A -> Prop).
Lemma forall2_permutation l l' k' : Forall2 R l l' -> Permutation l' k' -> rearranged R l k'.
Proof.
  intros F P. revert l F. induction P as [|x l1 l2 P IH|x y l1|l1 l2 l3 P1 IH1 P2 IH2]; intros l F.
  - inversion F. exists []. auto.
  - inversion F as [|a ? l0 ? H F']; subst. destruct (IH _ F') as [k [P' F'']]. exists (a :: k). auto.
  - inversion F as [|a ? l0 ? H F']; subst. inversion F' as [|b ? l0' ? H' F'']; subst. exists (b :: a :: l0'). split; [apply perm_swap|auto].
  - destruct (IH1 _ F) as [k1 [Q1 G1]]. destruct (IH2 _ G1) as [k2 [Q2 G2]]. exists k2. split; [now transitivity k1|exact G2].
Qed.
Lemma rearranged_permutation l l' k k' : rearranged R l l' -> Permutation l k -> Permutation l' k' -> rearranged R k k'.
Proof.
  intros [a [P F]] Q Q'. destruct (forall2_permutation F Q') as [b [P' F']]. exists b. split; [|exact F'].
  transitivity l; [now apply Permutation_sym|]. now transitivity a.
Qed.
Lemma rearranged_app l1 l1' l2 l2' : rearranged R l1 l1' -> rearranged R l2 l2' -> rearranged R (l1 ++ l2) (l1' ++ l2').
Proof. intros [k [P F]] [k' [P' F']]. exists (k ++ k'). split; [now apply Permutation_app|now apply Forall2_app]. Qed.
Lemma rearranged_nil : rearranged R [] [].
Proof. exists []. auto. Qed.
Lemma rearranged_one x y : R x y -> rearranged R [x] [y].
Proof. exists [x]. auto. Qed.
Lemma rearranged_forall2 l l' : Forall2 R l l' -> rearranged R l l'.
Proof. exists l. auto. Qed.
Lemma rearranged_in l l' x : rearranged R l l' -> In x l -> exists y, In y l' /\ R x y.
Proof.
  intros [k [P F]] I. apply (Permutation_in _ P) in I. clear P. induction F as [|a b k l' H F IH]; [destruct I|]. destruct I as [->|I].
  - exists b. split; [now left|exact H].
  - destruct (IH I) as [y [J K]]. exists y. split; [now right|exact K].
Qed.
Lemma rearranged_back l l' y : rearranged R l l' -> In y l' -> exists x, In x l /\ R x y.
Proof.
  intros [k [P F]] I. assert (H : exists x, In x k /\ R x y).
  { clear P. induction F as [|a b k l' H F IH]; [destruct I|]. destruct I as [->|I]; [exists a; split; [now left|exact H]|].
    destruct (IH I) as [x [J K]]. exists x. split; [now right|exact K]. }
  destruct H as [x [J K]]. exists x. split; [apply (Permutation_in _ (Permutation_sym P) J)|exact K].
Qed.
Lemma rearranged_filter p q l l' : (forall x y, R x y -> p x = q y) -> rearranged R l l' -> rearranged R (filter p l) (filter q l').
Proof.
  intros H [k [P F]]. exists (filter p k). split.
  - clear F. induction P as [|x l1 l2 P IH|x y l1|l1 l2 l3 P1 IH1 P2 IH2]; cbn [filter]; auto.
    + destruct (p x); auto.
    + destruct (p x), (p y); auto. apply perm_swap.
    + now transitivity (filter p l2).
  - clear P. induction F as [|x y k l' K F IH]; cbn [filter]; [constructor|]. rewrite <- (H _ _ K). destruct (p x); auto.
Qed.
Lemma rearranged_existsb p q l l' : (forall x y, R x y -> p x = q y) -> rearranged R l l' -> existsb p l = existsb q l'.
Proof.
  intros H P. apply eq_true_iff_eq. rewrite !existsb_exists. split.
  - intros [x [I T]]. destruct (rearranged_in P I) as [y [J K]]. exists y. split; [exact J|]. now rewrite <- (H _ _ K).
  - intros [y [I T]]. destruct (rearranged_back P I) as [x [J K]]. exists x. split; [exact J|]. now rewrite (H _ _ K).
Qed.
Lemma rearranged_forallb p q l l' : (forall x y, R x y -> p x = q y) -> rearranged R l l' -> forallb p l = forallb q l'.
Proof.
  intros H P. apply eq_true_iff_eq. rewrite !forallb_forall. split.
  - intros T y I. destruct (rearranged_back P I) as [x [J K]]. rewrite <- (H _ _ K). auto.
  - intros T x I. destruct (rearranged_in P I) as [y [J K]]. rewrite (H _ _ K). auto.
Qed.
Lemma rearranged_length l l' : rearranged R l l' -> List.length l = List.length l'.
Proof. intros [k [P F]]. rewrite (Permutation_length P). clear P. induction F; cbn; auto. Qed.
End Rearranged.

(** ** Notices about the same *)

Definition same_name (a b : str) : Prop := lower a = lower b.

(** Arguments of notices, when [f] says where every field of the one message is
    in the other: names of headers are equal up to case, and lists of headers
    up to order. *)
Inductive same_arg (f : who -> place -> place) : carg -> carg -> Prop :=
| same_value v : same_arg f (CVal v) (CVal v)
| same_entry w p : same_arg f (CEntry w p) (CEntry w (f w p))
| same_entries w l : same_arg f (CEntries w l) (CEntries w (map (f w) l))
| same_header w a b : same_name a b -> same_arg f (CHeader w a) (CHeader w b)
| same_headers w l l' : rearranged same_name l l' -> same_arg f (CHeaders w l) (CHeaders w l')
| same_error : same_arg f CError CError
| same_response i : same_arg f (CResponse i) (CResponse i).
Definition same_context f : list (str * carg) -> list (str * carg) -> Prop :=
  Forall2 (fun a b => fst a = fst b /\ same_arg f (snd a) (snd b)).
(** Notice 1200 is about any one of several headers. *)
Inductive same_event (f : who -> place -> place) : event -> event -> Prop :=
| same_said w id ctx ctx' : same_context f ctx ctx' -> same_event f (Said w id ctx) (Said w id ctx')
| same_1200 w ctx ctx' : same_event f (Said w 1200 ctx) (Said w 1200 ctx')
| same_silenced w ids : same_event f (Silenced w ids) (Silenced w ids).
(** All but notice 1032, which is about the order of fields. *)
Definition counts (e : event) : bool := match e with Said _ id _ => negb (id =? 1032)%N | Silenced _ _ => true end.
Definition same_events f (es es' : list event) : Prop := rearranged (same_event f) (filter counts es) (filter counts es').

Section Alike.
Variable E : env.
Variable f : who -> place -> place.

(** Both computations raise, or both return and have said the same. *)
Definition sim {A} (R : A -> A -> Prop) (m m' : M A) : Prop :=
  match m E, m' E with
  | (es, Ok v), (es', Ok v') => same_events f es es' /\ R v v'
  | (_, Raise _), (_, Raise _) => True
  | _, _ => False
  end.
Notation alike := (sim eq).

Lemma events_app a a' b b' : same_events f a a' -> same_events f b b' -> same_events f (a ++ b) (a' ++ b').
Proof. unfold same_events. rewrite !filter_app. apply rearranged_app. Qed.

Lemma sim_ret {A} (R : A -> A -> Prop) v v' : R v v' -> sim R (ret v) (ret v').
Proof. intro H. split; [apply rearranged_nil|exact H]. Qed.
Lemma alike_ret {A} (v : A) : alike (ret v) (ret v).
Proof. now apply sim_ret. Qed.
Lemma alike_pure b : alike (pure b) (pure b).
Proof. now apply sim_ret. Qed.
Lemma sim_raise {A} (R : A -> A -> Prop) e e' : sim R (raise e) (raise e').
Proof. exact Logic.I. Qed.
Lemma sim_bind {A B} (R : A -> A -> Prop) (S : B -> B -> Prop) m m' k k' : sim R m m' -> (forall v v', R v v' -> sim S (k v) (k' v')) -> sim S (bind m k) (bind m' k').
Proof.
  unfold sim, bind. intros H K. destruct (m E) as [es [v|e]], (m' E) as [es' [v'|e']]; try contradiction; [|exact Logic.I].
  destruct H as [H1 H2]. specialize (K _ _ H2). destruct (k v E) as [es1 [v1|e1]], (k' v' E) as [es1' [v1'|e1']]; try contradiction; [|exact Logic.I].
  destruct K as [K1 K2]. split; [now apply events_app|exact K2].
Qed.
Lemma alike_bind {A B} (S : B -> B -> Prop) (m m' : M A) k k' : alike m m' -> (forall v, sim S (k v) (k' v)) -> sim S (bind m k) (bind m' k').
Proof. intros H K. eapply sim_bind; [exact H|]. intros v ? <-. apply K. Qed.
Lemma alike_ask {A} (g : env -> A) : alike (ask g) (ask g).
Proof. split; [apply rearranged_nil|reflexivity]. Qed.
Lemma alike_some {A} (r : option A) : alike (some_of r) (some_of r).
Proof. destruct r; [apply alike_ret|exact Logic.I]. Qed.
Lemma alike_result {A} (r : result A) : alike (result_of r) (result_of r).
Proof. destruct r; [apply alike_ret|exact Logic.I]. Qed.
Lemma sim_complain w id ctx ctx' : same_context f ctx ctx' -> alike (complain w id ctx) (complain w id ctx').
Proof.
  intro H. split; [|reflexivity]. unfold same_events. cbn [filter counts]. destruct (negb (id =? 1032)%N); [|apply rearranged_nil].
  apply rearranged_one. now constructor.
Qed.
Lemma alike_and a a' b b' : alike a a' -> alike b b' -> alike (andM a b) (andM a' b').
Proof. intros H K. apply alike_bind; [exact H|]. intros [|]; [exact K|apply alike_ret]. Qed.
Lemma alike_or a a' b b' : alike a a' -> alike b b' -> alike (orM a b) (orM a' b').
Proof. intros H K. apply alike_bind; [exact H|]. intros [|]; [apply alike_ret|exact K]. Qed.
Lemma alike_not a a' : alike a a' -> alike (notM a) (notM a').
Proof. intros H. apply alike_bind; [exact H|]. intro. apply alike_ret. Qed.
Lemma sim_if {A} (R : A -> A -> Prop) c c' (a a' b b' : M A) : alike c c' -> sim R a a' -> sim R b b' -> sim R (ifM c a b) (ifM c' a' b').
Proof. intros H K L. apply alike_bind; [exact H|]. now intros [|]. Qed.
Lemma alike_when c c' a a' : alike c c' -> alike a a' -> alike (when c a) (when c' a').
Proof. intros. apply sim_if; auto. apply alike_ret. Qed.
Lemma alike_any {A} (g g' : A -> M bool) l : (forall x, alike (g x) (g' x)) -> alike (anyM g l) (anyM g' l).
Proof. intro H. induction l as [|x l IH]; cbn [anyM]; [apply alike_ret|now apply alike_or]. Qed.
Lemma alike_all {A} (g g' : A -> M bool) l : (forall x, alike (g x) (g' x)) -> alike (allM g l) (allM g' l).
Proof. intro H. induction l as [|x l IH]; cbn [allM]; [apply alike_ret|now apply alike_and]. Qed.
Lemma alike_map {A B} (g g' : A -> M B) l : (forall x, alike (g x) (g' x)) -> alike (mapM g l) (mapM g' l).
Proof. intro H. induction l as [|x l IH]; cbn [mapM]; [apply alike_ret|]. apply alike_bind; [apply H|]. intro. apply alike_bind; [exact IH|]. intro. apply alike_ret. Qed.
Lemma alike_each {A} (l : list A) g g' : (forall x, alike (g x) (g' x)) -> alike (for_each l g) (for_each l g').
Proof. intro H. induction l as [|x l IH]; cbn [for_each]; [apply alike_ret|]. apply alike_bind; [apply H|auto]. Qed.
Lemma alike_seq l l' : Forall2 (fun m m' : M unit => alike m m') l l' -> alike (seq l) (seq l').
Proof. unfold seq. intro H. induction H as [|m m' l l' K H IH]; cbn [for_each]; [apply alike_ret|]. apply alike_bind; [exact K|auto]. Qed.

(** Loops over lists that are rearranged. *)
Definition run_all {A} (l : list A) (g : A -> M unit) : list event * bool :=
  (flat_map (fun x => fst (g x E)) l, forallb (fun x => match snd (g x E) with Ok _ => true | Raise _ => false end) l).
Lemma each_run {A} (l : list A) g : match for_each l g E with (es, Ok _) => run_all l g = (es, true) | (_, Raise _) => snd (run_all l g) = false end.
Proof.
  unfold run_all. induction l as [|x l IH]; cbn [for_each]; [reflexivity|]. unfold bind. destruct (g x E) as [es [v|e]] eqn:X; cbn [flat_map forallb]; rewrite X; cbn [fst snd].
  - destruct (for_each l g E) as [es' [v'|e']]; cbn [andb]; [|exact IH]. injection IH as -> ->. reflexivity.
  - reflexivity.
Qed.
Lemma alike_loop {A} (R : A -> A -> Prop) (l l' : list A) g g' : rearranged R l l' -> (forall x x', R x x' -> alike (g x) (g' x')) -> alike (for_each l g) (for_each l' g').
Proof.
  intros [k [P F]] H.
  assert (B : snd (run_all l g) = snd (run_all l' g')).
  { cbn [run_all snd]. transitivity (forallb (fun x => match snd (g x E) with Ok _ => true | Raise _ => false end) k).
    - apply eq_true_iff_eq. rewrite !forallb_forall. split; intros T x I; apply T; [apply (Permutation_in _ (Permutation_sym P) I)|apply (Permutation_in _ P I)].
    - clear P. induction F as [|x y k l' K F IH]; cbn [forallb]; [reflexivity|]. rewrite IH. f_equal. specialize (H _ _ K). unfold sim in H.
      destruct (g x E) as [? [? | ?]], (g' y E) as [? [? | ?]]; try contradiction; reflexivity. }
  assert (C : snd (run_all l g) = true -> same_events f (fst (run_all l g)) (fst (run_all l' g'))).
  { intro T. cbn [run_all fst]. unfold same_events.
    assert (Q : Permutation (filter counts (flat_map (fun x => fst (g x E)) l)) (filter counts (flat_map (fun x => fst (g x E)) k))).
    { apply (Permutation_flat_map (fun x => fst (g x E))) in P. clear - P. induction P as [|x l1 l2 P IH|x y l1|l1 l2 l3 P1 IH1 P2 IH2]; cbn [filter]; auto.
      + destruct (counts x); auto.
      + destruct (counts x), (counts y); auto. apply perm_swap.
      + etransitivity; eassumption. }
    apply (@rearranged_permutation _ _ (filter counts (flat_map (fun x => fst (g x E)) k)) (filter counts (flat_map (fun x => fst (g' x E)) l')));
      [|now apply Permutation_sym|reflexivity].
    assert (T' : forallb (fun x => match snd (g x E) with Ok _ => true | Raise _ => false end) k = true).
    { cbn [run_all snd] in T. rewrite forallb_forall in T |- *. intros x I. apply T. apply (Permutation_in _ (Permutation_sym P) I). }
    clear P Q T B. induction F as [|x y k l' K F IH]; [apply rearranged_nil|]. cbn [flat_map forallb] in *. apply andb_prop in T'. destruct T' as [T1 T2].
    apply events_app; [|apply IH, T2]. specialize (H _ _ K). unfold sim in H. destruct (g x E) as [? [? | ?]]; [|discriminate T1].
    destruct (g' y E) as [? [? | ?]]; [apply H|contradiction]. }
  pose proof (each_run l g) as U. pose proof (each_run l' g') as V. unfold sim.
  destruct (for_each l g E) as [es [u|e]], (for_each l' g' E) as [es' [u'|e']].
  - rewrite U, V in C. split; [now apply C|]. now destruct u, u'.
  - rewrite U in B. rewrite V in B. discriminate B.
  - rewrite V in B. rewrite U in B. discriminate B.
  - exact Logic.I.
Qed.
End Alike.
