(** What the combinators mean: which strings a symbol accepts, with which
    values and complaints. *)
From Coq Require Import ZifyBool ZifyNat ZifyN.
From Verif Require Import Base Earley EarleySpec EarleyChart EarleyMain Parse Grammar P_Earley.
Open Scope nat_scope.
Unset Strict Implicit.

(** ** Nodes *)

(** The value of a rule's nodes (httpolice/parse.py:889-896). *)
Definition collapse (nodes : list val) : val :=
  match filter (fun v => negb (is_vskip v)) nodes with
  | [] => VSkip
  | [n] => n
  | l => VTuple l
  end.

Section Sem.
Variable rec_rules : str -> list rule.
Variable pyfun : pyf -> list val -> val * list vcomplaint.
Notation G := (sgrammar rec_rules).

(** A node with its complaints, without annotations. *)
Definition node : Type := val * list vcomplaint.

Definition sem_leaf (c : N) : node := (VStr [c], []).
Definition sem_act (A : nt G) (r : rl G) (_ _ : nat) (kids : list node) : node :=
  let (nodes, more) := run_action pyfun (snd (r : rule)) (map fst kids) in
  (collapse nodes, flat_map snd kids ++ more).
Lemma sem_act_eq A (r : rule) i j kids nodes more :
  run_action pyfun (snd r) (map fst kids) = (nodes, more) ->
  sem_act A (r : rl G) i j kids = (collapse nodes, flat_map snd kids ++ more).
Proof. intro E. unfold sem_act. now rewrite E. Qed.
Definition sem_rep (kids : list node) : node := (VList (map fst kids), flat_map snd kids).
Lemma sem_rep_eq kids : sem_rep kids = (VList (map fst kids), flat_map snd kids).
Proof. reflexivity. Qed.

(** What the parser computes (Parse.v), with annotations. *)
Section Annotated.
Variable annotated : val -> bool.
Definition p_leaf := @node_leaf val vcomplaint (fun c => VStr [c]).
Definition p_act := @node_act G val vcomplaint VSkip is_vskip VTuple
                     (fun r => Some (run_action pyfun (snd (r : rule)))) annotated.
Definition p_rep := @node_rep val vcomplaint VList.
Notation presult := (@presult val vcomplaint).

Definition forget (p : presult) : node := (pr_node p, pr_complaints p).

Lemma flat_map_map {A B C} (f : B -> list C) (g : A -> B) l : flat_map f (map g l) = flat_map (fun x => f (g x)) l.
Proof. induction l; simpl; congruence. Qed.

Lemma map_meanings_forget ks : map fst (map forget ks) = map (@pr_node val vcomplaint) ks.
Proof. rewrite map_map. reflexivity. Qed.
Lemma flat_meanings_forget ks : flat_map snd (map forget ks) = flat_map (@pr_complaints val vcomplaint) ks.
Proof. now rewrite flat_map_map. Qed.

Lemma forget_act A r i j ks : forget (p_act A r i j ks) = sem_act A r i j (map forget ks).
Proof.
  unfold p_act, node_act, sem_act, forget at 1.
  rewrite map_meanings_forget, flat_meanings_forget.
  destruct (run_action pyfun (snd r) _) as [nodes more]. simpl. unfold collapse.
  destruct (filter _ nodes) as [|n [|m l]]; reflexivity.
Qed.

Lemma forget_rep ks : forget (p_rep ks) = sem_rep (map forget ks).
Proof.
  unfold p_rep, node_rep, sem_rep, forget at 1. simpl.
  now rewrite map_meanings_forget, flat_meanings_forget.
Qed.

Lemma forget_meaning_aux :
  (forall (t : tree G) k,
     forget (meaning p_leaf p_act p_rep k t) = meaning sem_leaf sem_act sem_rep 0 t /\
     meaning sem_leaf sem_act sem_rep k t = meaning sem_leaf sem_act sem_rep 0 t /\
     match t with
     | Leaf _ => True
     | Node _ _ f => map forget (elements p_leaf p_act p_rep k f) = elements sem_leaf sem_act sem_rep 0 f /\
                     elements sem_leaf sem_act sem_rep k f = elements sem_leaf sem_act sem_rep 0 f
     end) /\
  (forall (f : forest G) k,
     map forget (meanings p_leaf p_act p_rep k f) = meanings sem_leaf sem_act sem_rep 0 f /\
     meanings sem_leaf sem_act sem_rep k f = meanings sem_leaf sem_act sem_rep 0 f /\
     map forget (elements p_leaf p_act p_rep k f) = elements sem_leaf sem_act sem_rep 0 f /\
     elements sem_leaf sem_act sem_rep k f = elements sem_leaf sem_act sem_rep 0 f).
Proof.
  apply tree_forest_ind.
  - intros c k. repeat split; reflexivity.
  - intros A r f IH k. rewrite !meaning_node. destruct (IH k) as [E1 [E2 [E3 E4]]].
    split; [|split; [|split; assumption]].
    + destruct (rep_rule A r); [rewrite forget_rep, E3; reflexivity|rewrite forget_act, E1; reflexivity].
    + rewrite E2, E4. reflexivity.
  - intro k. repeat split; reflexivity.
  - intros t IHt f IHf k. rewrite !meanings_fcons, !elements_fcons, !map_cons, !map_app.
    destruct (IHf (k + List.length (tree_yield t))) as [A1 [A2 _]].
    destruct (IHf (0 + List.length (tree_yield t))) as [B1 [B2 _]].
    destruct (IHt k) as [C1 [C2 C3]].
    rewrite C1, C2, A1, A2, B2. repeat split.
    + destruct t as [c|A r g]; [reflexivity|]. destruct C3 as [C3 _]. destruct (rep_rule A r); [now rewrite C3|reflexivity].
    + destruct t as [c|A r g]; [reflexivity|]. destruct C3 as [_ C3]. destruct (rep_rule A r); [now rewrite C3|reflexivity].
Qed.

Lemma forget_meaning (t : tree G) k :
  forget (meaning p_leaf p_act p_rep k t) = meaning sem_leaf sem_act sem_rep 0 t.
Proof. apply forget_meaning_aux. Qed.

End Annotated.

Lemma sem_meaning (t : tree G) k : meaning sem_leaf sem_act sem_rep k t = meaning sem_leaf sem_act sem_rep 0 t.
Proof. apply (forget_meaning_aux (fun _ => false)). Qed.
Lemma sem_meanings (f : forest G) k : meanings sem_leaf sem_act sem_rep k f = meanings sem_leaf sem_act sem_rep 0 f.
Proof. apply (forget_meaning_aux (fun _ => false)). Qed.
Lemma sem_elements (f : forest G) k : elements sem_leaf sem_act sem_rep k f = elements sem_leaf sem_act sem_rep 0 f.
Proof. apply (forget_meaning_aux (fun _ => false)). Qed.

Notation msem := (meaning sem_leaf sem_act sem_rep 0).
Notation msems := (meanings sem_leaf sem_act sem_rep 0).
Notation mels := (elements sem_leaf sem_act sem_rep 0).

(** ** The relation between strings and values *)

(** [x] can be read from [w], with value [v] and complaints [cs]. *)
Definition means (x : symbol) (w : str) (v : val) (cs : list vcomplaint) : Prop :=
  exists t : tree G, @tree_of G (to_sym x) t /\ tree_yield t = w /\ msem t = (v, cs).

(** The same for the symbols of a rule, one after another. *)
Inductive means_seq : list symbol -> str -> list val -> list vcomplaint -> Prop :=
| ms_nil : means_seq [] [] [] []
| ms_cons x xs w ws v vs cs css :
    means x w v cs -> means_seq xs ws vs css -> means_seq (x :: xs) (w ++ ws) (v :: vs) (cs ++ css).

(** A rule with its action: the nodes, before they are collapsed. *)
Definition rmeans (r : rule) (w : str) (nodes : list val) (kc ac : list vcomplaint) : Prop :=
  exists vs, means_seq (fst r) w vs kc /\ run_action pyfun (snd r) vs = (nodes, ac).

(** Repetition. *)
Inductive many_means (x : symbol) : str -> list val -> list vcomplaint -> Prop :=
| mm_nil : many_means x [] [] []
| mm_cons w ws v vs cs css :
    means x w v cs -> many_means x ws vs css -> many_means x (w ++ ws) (v :: vs) (cs ++ css).

Lemma many_means_app x w1 v1 c1 w2 v2 c2 :
  many_means x w1 v1 c1 -> many_means x w2 v2 c2 -> many_means x (w1 ++ w2) (v1 ++ v2) (c1 ++ c2).
Proof.
  induction 1 as [|w ws v vs cs css H H' IH]; intro H2; [exact H2|].
  rewrite <- !app_assoc, <- app_comm_cons. constructor; auto.
Qed.

Lemma many_means_snoc x w v c w' v' c' :
  many_means x w v c -> means x w' v' c' -> many_means x (w ++ w') (v ++ [v']) (c ++ c').
Proof.
  intros H H'. apply many_means_app; [exact H|].
  rewrite <- (app_nil_r w'), <- (app_nil_r c'). constructor; [exact H'|constructor].
Qed.

Lemma many_means_unsnoc x w vs c : many_means x w vs c ->
  (w = [] /\ vs = [] /\ c = []) \/
  exists w1 v1 c1 w2 v2 c2, many_means x w1 v1 c1 /\ means x w2 v2 c2
     /\ w = w1 ++ w2 /\ vs = v1 ++ [v2] /\ c = c1 ++ c2.
Proof.
  induction 1 as [|w ws v vs cs css H H' IH]; [auto|right].
  destruct IH as [[-> [-> ->]]|[w1 [v1 [c1 [w2 [v2 [c2 [M1 [M2 [-> [-> ->]]]]]]]]]]].
  - exists [], [], [], w, v, cs. rewrite !app_nil_r. repeat split; auto.
  - exists (w ++ w1), (v :: v1), (cs ++ c1), w2, v2, c2. rewrite !app_assoc. repeat split; auto.
    constructor; auto.
Qed.

Lemma seq_forest xs w vs kc :
  means_seq xs w vs kc <->
  exists f : forest G, @forest_of G (map to_sym xs) f /\ forest_yield f = w
     /\ map fst (msems f) = vs /\ flat_map snd (msems f) = kc.
Proof.
  split.
  - induction 1 as [|x xs w ws v vs cs css [t [T1 [T2 T3]]] H [f [F1 [F2 [F3 F4]]]]].
    + exists (@Fnil G). repeat split. constructor.
    + exists (Fcons t f). rewrite yield_fcons, meanings_fcons, sem_meanings, T3, T2, F2. cbn [map flat_map fst snd].
      rewrite F3, F4. repeat split. constructor; auto.
  - intros [f [F1 [F2 [F3 F4]]]]. revert xs w vs kc F1 F2 F3 F4.
    induction f as [|t f IH]; intros xs w vs kc F1 F2 F3 F4.
    + inversion F1 as [E|]. destruct xs; [|discriminate]. cbn in *. subst. constructor.
    + inversion F1 as [|y ss t' f' T1 F1' E]. destruct xs as [|x xs]; [discriminate|]. cbn [map] in E.
      injection E as E1 E2. subst y ss t' f'.
      rewrite yield_fcons in F2. rewrite meanings_fcons, sem_meanings in F3, F4. cbn [map flat_map] in F3, F4. subst.
      constructor.
      * exists t. repeat split; auto. destruct (msem t); reflexivity.
      * eapply IH; eauto.
Qed.

Lemma means_term n b w v cs :
  means (Term n b) w v cs <-> exists c, N.testbit b c = true /\ w = [c] /\ v = VStr [c] /\ cs = [].
Proof.
  split.
  - intros [t [T1 [T2 T3]]]. cbn [to_sym] in T1. inversion T1 as [bits c TB|]; subst.
    exists c. cbn in T3. injection T3 as <- <-. auto.
  - intros [c [H [-> [-> ->]]]]. exists (Leaf c). repeat split. now constructor.
Qed.

(** A rule of a nonterminal, not an unrolled repetition. *)
Lemma tree_rule (x : nt G) (r : rule) w v cs :
  rep_rule x (r : rl G) = false ->
  (exists f, forest_of (g_rhs (r : rl G)) f /\ forest_yield f = w /\ msem (Node x (r : rl G) f) = (v, cs))
  <-> exists nodes kc ac, rmeans r w nodes kc ac /\ v = collapse nodes /\ cs = kc ++ ac.
Proof.
  intro RR. split.
  - intros [f [F1 [F2 F3]]]. rewrite meaning_node, RR in F3.
    destruct (run_action pyfun (snd r) (map fst (msems f))) as [nodes more] eqn:RA.
    rewrite (sem_act_eq _ _ _ RA) in F3. injection F3 as <- <-. exists nodes, (flat_map snd (msems f)), more. repeat split; auto.
    exists (map fst (msems f)). split; auto. apply seq_forest. exists f. auto.
  - intros [nodes [kc [ac [[vs [M RA]] [-> ->]]]]]. apply seq_forest in M.
    destruct M as [f [F1 [F2 [F3 F4]]]]. exists f. repeat split; auto.
    rewrite <- F3 in RA. rewrite meaning_node, RR, (sem_act_eq _ _ _ RA), F4. reflexivity.
Qed.

Lemma means_simple i rs w v cs :
  means (Simple i rs) w v cs <->
  exists r nodes kc ac, In r rs /\ rmeans r w nodes kc ac /\ v = collapse nodes /\ cs = kc ++ ac.
Proof.
  split.
  - intros [t [T1 [T2 T3]]]. cbn [to_sym] in T1. inversion T1 as [|A r f I F]; subst.
    destruct (@tree_rule (Simple i rs) r (forest_yield f) v cs eq_refl) as [X _].
    destruct X as [nodes [kc [ac X]]]; eauto. exists r, nodes, kc, ac. split; auto.
  - intros [r [nodes [kc [ac [I X]]]]].
    destruct (@tree_rule (Simple i rs) r w v cs eq_refl) as [_ Y].
    destruct Y as [f [F1 [F2 F3]]]; eauto. exists (Node (Simple i rs : nt G) (r : rl G) f).
    repeat split; auto. now constructor.
Qed.

Lemma means_rec n w v cs :
  means (Rec n) w v cs <->
  exists r nodes kc ac, In r (rec_rules n) /\ rmeans r w nodes kc ac /\ v = collapse nodes /\ cs = kc ++ ac.
Proof.
  split.
  - intros [t [T1 [T2 T3]]]. cbn [to_sym] in T1. inversion T1 as [|A r f I F]; subst.
    destruct (@tree_rule (Rec n) r (forest_yield f) v cs eq_refl) as [X _].
    destruct X as [nodes [kc [ac X]]]; eauto. exists r, nodes, kc, ac. split; auto.
  - intros [r [nodes [kc [ac [I X]]]]].
    destruct (@tree_rule (Rec n) r w v cs eq_refl) as [_ Y].
    destruct Y as [f [F1 [F2 F3]]]; eauto. exists (Node (Rec n : nt G) (r : rl G) f).
    repeat split; auto. now constructor.
Qed.

Lemma means_group x w v cs : means (group x) w v cs <-> means x w v cs.
Proof.
  destruct x as [| i rs | |]; cbn [group]; try reflexivity.
  destruct (info_ephemeral i); [|reflexivity]. now rewrite !means_simple.
Qed.

Lemma group_not_ephemeral x : as_rule (group x) = ([group x], ANone).
Proof.
  destruct x as [| i rs | |]; cbn [group]; try reflexivity.
  destruct (info_ephemeral i) eqn:E; unfold as_rule.
  - cbn. now destruct rs as [|r [|]].
  - rewrite E. now destruct rs as [|r [|]].
Qed.

Lemma rules_repeated i y :
  repeated_rules i None y =
  [([], AWrap (FSubst (VList [])) ANone); ([Repeated i None y; group y], ANone)].
Proof.
  unfold repeated_rules, seq2. cbn [as_rule]. rewrite group_not_ephemeral. reflexivity.
Qed.

Lemma rep_rule_repeated i y :
  rep_rule (Repeated i None y : nt G) (([Repeated i None y; group y], ANone) : rl G) = true.
Proof.
  unfold rep_rule. cbn [g_rep sgrammar is_repeated g_rhs fst map to_sym nt_dec andb].
  destruct (symbol_dec _ _) as [|N]; [reflexivity|now elim N].
Qed.

Lemma means_repeated i y w v cs :
  means (Repeated i None y) w v cs <-> exists vs, many_means y w vs cs /\ v = VList vs.
Proof.
  set (A := Repeated i None y : nt G).
  set (r0 := ([], AWrap (FSubst (VList [])) ANone) : rl G).
  set (r1 := ([Repeated i None y; group y], ANone) : rl G).
  assert (RR0 : rep_rule A r0 = false) by reflexivity.
  assert (RR1 : rep_rule A r1 = true) by apply rep_rule_repeated.
  assert (ER : g_rules A = [r0; r1]) by apply rules_repeated.
  assert (I0 : In r0 (g_rules A)) by (rewrite ER; simpl; auto).
  assert (I1 : In r1 (g_rules A)) by (rewrite ER; simpl; auto).
  assert (N0 : msem (Node A r0 Fnil) = (VList [], [])) by reflexivity.
  split.
  - set (els := fun t : tree G => match t with Node B r f => if rep_rule B r then mels f else [] | Leaf _ => [] end).
    assert (X : forall t, tree_of (Nt A) t ->
       many_means y (tree_yield t) (map fst (els t)) (flat_map snd (els t)) /\ msem t = sem_rep (els t)).
    { apply (@tree_mut G (fun t => tree_of (Nt A) t ->
         many_means y (tree_yield t) (map fst (els t)) (flat_map snd (els t)) /\ msem t = sem_rep (els t))
        (fun f => match f with Fnil => True | Fcons t _ => tree_of (Nt A) t ->
         many_means y (tree_yield t) (map fst (els t)) (flat_map snd (els t)) /\ msem t = sem_rep (els t) end)); auto.
      - intros c T1. inversion T1.
      - intros B r f IH T1. inversion T1 as [|A'' r' f' Ir F]; subst. rewrite ER in Ir. destruct Ir as [<-|[<-|[]]].
        + inversion F; subst. unfold els. rewrite RR0. split; [constructor|exact N0].
        + unfold r1 in F. cbn in F. inversion F as [|z ss t0 f0 T0 F0]; subst.
          inversion F0 as [|z ss t2 f2 T2 F2]; subst. inversion F2; subst. clear F F0 F2.
          destruct (IH T0) as [M E]. replace (els (Node A r1 (Fcons t0 (Fcons t2 Fnil)))) with (mels (Fcons t0 (Fcons t2 Fnil))) by (unfold els; now rewrite RR1). rewrite meaning_node, RR1. split; [|reflexivity].
          rewrite elements_fcons, sem_meanings, meanings_fcons, meanings_fnil, yield_node, !yield_fcons, yield_fnil, app_nil_r.
          fold (els t0). rewrite map_app, flat_map_app. cbn [map flat_map]. rewrite app_nil_r.
          apply many_means_snoc; [exact M|]. rewrite <- means_group. exists t2. repeat split; auto.
          now destruct (msem t2). }
    intros [t [T1 [T2 T3]]]. destruct (X t T1) as [M E]. rewrite E in T3. injection T3 as <- <-. subst w.
    exists (map fst (els t)). auto.
  - intros [vs [M ->]]. remember (List.length vs) as n eqn:En. revert w vs cs M En.
    induction n as [|n IH]; intros w vs cs M En; destruct (many_means_unsnoc M) as [[-> [-> ->]]|[w1 [v1 [c1 [w2 [v2 [c2 [M1 [M2 [-> [-> ->]]]]]]]]]]];
      try (rewrite app_length in En; simpl in En; lia); try discriminate.
    + exists (Node A r0 Fnil). repeat split. constructor; [exact I0|constructor].
    + destruct (IH _ _ _ M1) as [t [T1 [T2 T3]]]. { rewrite app_length in En. simpl in En. lia. }
      rewrite <- means_group in M2. destruct M2 as [t2 [U1 [U2 U3]]].
      exists (Node A r1 (Fcons t (Fcons t2 Fnil))).
      split; [constructor; [exact I1|]; constructor; [exact T1|]; constructor; [exact U1|constructor]|].
      rewrite yield_node, !yield_fcons, yield_fnil, app_nil_r, T2, U2. split; [reflexivity|].
      rewrite meaning_node, RR1, elements_fcons, sem_meanings, meanings_fcons, meanings_fnil, U3.
      assert (Q : forall t, tree_of (Nt A) t -> msem t = sem_rep (match t with Node B r f => if rep_rule B r then mels f else [] | Leaf _ => [] end)).
      { intros t0 T0. inversion T0 as [|A'' r' f' Ir F]; subst. rewrite ER in Ir. destruct Ir as [<-|[<-|[]]].
        - inversion F; subst. exact N0.
        - rewrite RR1, meaning_node, RR1. reflexivity. }
      rewrite (Q t T1) in T3. rewrite sem_rep_eq in T3 |- *. injection T3 as T3 T4.
      rewrite map_app, flat_map_app. cbn [map flat_map fst snd]. rewrite app_nil_r.
      apply f_equal2; [apply f_equal, (f_equal (fun l => l ++ [v2])); exact T3|apply (f_equal (fun l => l ++ c2)); exact T4].
Qed.

End Sem.
