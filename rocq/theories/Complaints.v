(** Which complaints reading a symbol can make: only those of the functions
    that occur in its rules. *)
From Coq Require Import ZifyBool ZifyNat ZifyN String.
From Verif Require Import Base Earley EarleySpec Parse Grammar GrammarSem GrammarWF Syntax Actions Nested Reading.
Open Scope nat_scope.
Open Scope list_scope.
Unset Strict Implicit.

Section Uses.
(** Functions that are allowed; are recursive symbols allowed? *)
Variable ok : func -> bool.
Variable rec_ok : bool.

Fixpoint action_uses (a : raction) : bool :=
  match a with
  | ANone => true
  | AConcat _ a1 a2 => action_uses a1 && action_uses a2
  | AWrap f inner => ok f && action_uses inner
  end.
(** Does a symbol only use those?  The rules of recursive symbols are looked at
    elsewhere. *)
Fixpoint uses (x : symbol) : bool :=
  match x with
  | Term _ _ => true
  | Rec _ => rec_ok
  | Simple _ rs => forallb (fun r : list symbol * raction => forallb uses (fst r) && action_uses (snd r)) rs
  | Repeated _ _ y => uses y
  end.
Definition rule_uses (r : rule) : bool := forallb uses (fst r) && action_uses (snd r).

Hypothesis list_ok : ok (FSubst (VList [])) = true /\ ok FContinueList = true /\ ok FBeginList = true.

Lemma as_rules_uses x : uses x = true -> forallb rule_uses (as_rules x) = true.
Proof.
  intro H. unfold as_rules. destruct x as [| i rs | |]; try (cbn; unfold rule_uses; cbn; cbn in H; now rewrite ?H).
  destruct (info_ephemeral i); [exact H|]. cbn [forallb]. unfold rule_uses. cbn [fst snd action_uses forallb]. now rewrite H.
Qed.
Lemma as_rule_uses x : uses x = true -> rule_uses (as_rule x) = true.
Proof.
  intro H. unfold as_rule. destruct x as [| i rs | |]; try (unfold rule_uses; cbn; cbn in H; now rewrite ?H).
  assert (D : rule_uses ([Simple i rs], ANone) = true) by (unfold rule_uses; cbn [fst snd action_uses forallb]; now rewrite H).
  destruct rs as [|r [|]]; try exact D. destruct (info_ephemeral i); [|exact D]. cbn in H. now rewrite andb_true_r in H.
Qed.
Lemma alt_uses a b : uses a = true -> uses b = true -> uses (alt a b) = true.
Proof.
  intros A B. assert (D : uses (Simple anon (as_rules a ++ as_rules b)) = true).
  { change (forallb rule_uses (as_rules a ++ as_rules b) = true). now rewrite forallb_app, !as_rules_uses. }
  unfold alt. destruct a; try exact D. destruct b; first [exact D|reflexivity].
Qed.
Lemma seq2_uses a b : uses a = true -> uses b = true -> uses (seq2 a b) = true.
Proof.
  intros A B. unfold seq2. cbn [uses forallb]. rewrite andb_true_r. apply as_rule_uses in A, B. unfold rule_uses in A, B. apply andb_true_iff in A, B.
  unfold rule_concat. cbn [fst snd]. rewrite forallb_app. destruct A as [-> A], B as [-> B]. cbn.
  unfold concat_action. destruct (snd (as_rule a)), (snd (as_rule b)); cbn in *; rewrite ?A, ?B; auto.
Qed.
Lemma wrap_uses f x : ok f = true -> uses x = true -> uses (wrap f x) = true.
Proof.
  intros F H. unfold wrap. change (forallb rule_uses (map (rule_wrap f) (as_rules x)) = true). apply as_rules_uses in H. apply forallb_forall. intros r I.
  apply in_map_iff in I. destruct I as [r' [<- I]]. pose proof (proj1 (forallb_forall _ _) H _ I) as Q. unfold rule_uses, rule_wrap in *. cbn [fst snd action_uses]. now rewrite F.
Qed.
Lemma group_uses x : uses x = true -> uses (group x) = true.
Proof. destruct x; cbn [group]; try trivial. intro H. destruct (info_ephemeral i); exact H. Qed.

Variable rules : str -> list rule.
Hypothesis rec_uses : rec_ok = true -> forall n, forallb rule_uses (rules n) = true.

Lemma rules_uses x : uses x = true -> forallb rule_uses (rules_of rules x) = true.
Proof.
  destruct list_ok as [L1 [L2 L3]].
  destruct x as [|i rs|i m y|n]; intro H; [reflexivity|exact H| |now apply rec_uses]. cbn [rules_of]. cbn [uses] in H. unfold repeated_rules.
  assert (E : uses empty = true) by reflexivity.
  assert (N : uses (wrap (FSubst (VList [])) empty) = true) by now apply wrap_uses.
  apply as_rules_uses. destruct m as [[|[|m]]|]; (apply alt_uses; [exact N|]); [apply wrap_uses|apply wrap_uses|apply wrap_uses|]; auto using seq2_uses, group_uses.
Qed.

Variable pf : pyf -> list val -> val * list vcomplaint.
Variable P : vcomplaint -> Prop.
Hypothesis good : forall f args, ok (FPy f) = true -> Forall P (snd (pf f args)).

Lemma call_complaints f args : ok f = true -> Forall P (snd (call_func pf f args)).
Proof. destruct f; intro H; try constructor. now apply good. Qed.
Lemma run_complaints a : forall nodes, action_uses a = true -> Forall P (snd (run_action pf a nodes)).
Proof.
  induction a as [|n a1 IH1 a2 IH2|f a IH]; intros nodes H; cbn [run_action action_uses] in *; [constructor| |]; apply andb_true_iff in H; destruct H as [H1 H2].
  - specialize (IH1 (firstn n nodes) H1). specialize (IH2 (skipn n nodes) H2). destruct (run_action pf a1 _), (run_action pf a2 _). cbn [snd] in *. apply Forall_app. auto.
  - specialize (IH nodes H2). destruct (run_action pf a nodes) as [n c]. pose proof (@call_complaints f (filter (fun v => negb (is_vskip v)) n) H1) as Q.
    destruct (call_func pf f _). cbn [snd] in *. apply Forall_app. auto.
Qed.

Notation G := (sgrammar rules).
Notation ml := sem_leaf.
Notation ma := (@sem_act rules pf).
Notation mr := sem_rep.
Definition fine (n : node) : Prop := Forall P (snd n).

Lemma flat_fine l : Forall fine l -> Forall P (flat_map snd l).
Proof. induction 1; cbn; [constructor|]. apply Forall_app. auto. Qed.

Lemma tree_complaints :
  (forall X (t : tree G), @tree_of G X t -> forall x, X = to_sym x -> uses x = true -> forall k,
     fine (@meaning G node ml ma mr k t) /\
     match t with Node A r f => Forall fine (@elements G node ml ma mr k f) | _ => True end) /\
  (forall XS (f : forest G), @forest_of G XS f -> forall xs, XS = map to_sym xs -> forallb uses xs = true -> forall k,
     Forall fine (@meanings G node ml ma mr k f) /\ Forall fine (@elements G node ml ma mr k f)).
Proof.
  apply tree_forest_of_ind.
  - intros bits c B x E U k. split; [|exact I]. rewrite meaning_leaf. constructor.
  - intros A r f Ir F IH x E U k. assert (x = A) by (destruct x; cbn in E; congruence). subst x.
    pose proof (rules_uses U) as R. pose proof (proj1 (forallb_forall _ _) R _ Ir) as RU. unfold rule_uses in RU. apply andb_true_iff in RU. destruct RU as [R1 R2].
    destruct (IH (fst (r : rule)) eq_refl R1 k) as [M1 M2]. split; [|exact M2]. rewrite meaning_node. destruct (rep_rule A r).
    + unfold fine. rewrite sem_rep_eq. cbn [snd]. now apply flat_fine.
    + unfold fine, sem_act. pose proof (@run_complaints (snd (r : rule)) (map fst (@meanings G node ml ma mr k f)) R2) as Q.
      destruct (run_action pf (snd (r : rule)) _) as [nodes more]. cbn [snd] in *. apply Forall_app. split; [now apply flat_fine|exact Q].
  - intros xs E U k. split; constructor.
  - intros X XS t f T IHt F IHf xs E U k. destruct xs as [|x xs]; [discriminate E|]. cbn [map] in E. injection E as E1 E2. cbn [forallb] in U. apply andb_true_iff in U. destruct U as [U1 U2].
    destruct (IHt x E1 U1 k) as [A1 A2]. destruct (IHf xs E2 U2 (k + List.length (tree_yield t))) as [B1 B2].
    rewrite meanings_fcons, elements_fcons. split; [now constructor|]. apply Forall_app. split; [|exact B1].
    destruct t as [c|A r g]; [constructor|]. destruct (rep_rule A r); [exact A2|constructor].
Qed.

Lemma means_complaints x w v cs : uses x = true -> means rules pf x w v cs -> Forall P cs.
Proof.
  intros U [t [T [_ E]]]. destruct (proj1 tree_complaints _ _ T x eq_refl U 0) as [H _]. unfold fine in H. rewrite E in H. exact H.
Qed.
End Uses.
