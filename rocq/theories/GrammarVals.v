(** The values of the combinators. *)
From Coq Require Import ZifyBool ZifyNat ZifyN.
From Verif Require Import Base Earley EarleySpec EarleyChart EarleyMain Grammar GrammarSem GrammarLang GrammarWF.
Open Scope nat_scope.
Unset Strict Implicit.

Section Vals.
Variable rec_rules : str -> list rule.
Variable pyfun : pyf -> list val -> val * list vcomplaint.
Notation means := (means rec_rules pyfun).
Notation rmeans := (rmeans rec_rules pyfun).
Notation means_seq := (means_seq rec_rules pyfun).
Notation many_means := (many_means rec_rules pyfun).
Notation lang := (lang rec_rules).
Notation call_func := (call_func pyfun).

(** The nodes of a symbol where its rules are inlined as alternatives, and
    where it is a factor of a product. *)
Definition nmeans (x : symbol) w nodes kc ac : Prop := exists r, In r (as_rules x) /\ rmeans r w nodes kc ac.
Definition ameans (x : symbol) w nodes kc ac : Prop := rmeans (as_rule x) w nodes kc ac.

(** Inlined into products? *)
Definition eph1 (x : symbol) : bool :=
  match x with Simple i [_] => info_ephemeral i | _ => false end.
Definition eph (x : symbol) : bool :=
  match x with Simple i _ => info_ephemeral i | _ => false end.

Lemma rmeans_one x w nodes kc ac :
  rmeans ([x], ANone) w nodes kc ac <-> exists v, means x w v kc /\ nodes = [v] /\ ac = [].
Proof.
  split.
  - intros [vs [M R]]. cbn in M, R. injection R as <- <-. inversion M as [|y ys w1 ws v vs' cs css M1 M2]; subst.
    inversion M2; subst. rewrite !app_nil_r. eauto.
  - intros [v [M [-> ->]]]. exists [v]. split; [|reflexivity]. cbn [fst].
    rewrite <- (app_nil_r w), <- (app_nil_r kc). constructor; [exact M|constructor].
Qed.

Lemma nm_node x w nodes kc ac : eph x = false ->
  nmeans x w nodes kc ac <-> exists v, means x w v kc /\ nodes = [v] /\ ac = [].
Proof.
  intro E. unfold nmeans.
  assert (R : as_rules x = [([x], ANone)]) by (destruct x; try reflexivity; cbn in *; now rewrite E).
  rewrite R, <- rmeans_one. split; [intros [r [[<-|[]] H]]; exact H|]. intro H. eexists. split; [left; reflexivity|exact H].
Qed.

Lemma am_node x w nodes kc ac : eph1 x = false ->
  ameans x w nodes kc ac <-> exists v, means x w v kc /\ nodes = [v] /\ ac = [].
Proof.
  intro E. unfold ameans.
  assert (R : as_rule x = ([x], ANone)) by (destruct x as [|i [|r [|]]| |]; try reflexivity; cbn in *; now rewrite E).
  now rewrite R, <- rmeans_one.
Qed.

Lemma am_eph x w nodes kc ac : eph1 x = true -> ameans x w nodes kc ac <-> nmeans x w nodes kc ac.
Proof.
  intro E. unfold ameans, nmeans. destruct x as [|i [|r [|]]| |]; try discriminate. cbn in *. rewrite E.
  split; [intro H; exists r; simpl; auto|]. intros [r0 [[<-|[]] H]]. exact H.
Qed.

Lemma means_nm x w v cs :
  means x w v cs <-> exists nodes kc ac, nmeans x w nodes kc ac /\ v = collapse nodes /\ cs = kc ++ ac.
Proof.
  destruct (eph x) eqn:E.
  - destruct x as [|i rs| |]; try discriminate. rewrite means_simple. unfold nmeans. cbn in E |- *. rewrite E. split.
    + intros [r [nodes [kc [ac [I [R [-> ->]]]]]]]. exists nodes, kc, ac. eauto.
    + intros [nodes [kc [ac [[r [I R]] [-> ->]]]]]. exists r, nodes, kc, ac. auto.
  - split.
    + intro M. exists [v], cs, []. rewrite nm_node by exact E. rewrite app_nil_r. repeat split; [eauto|].
      unfold collapse. cbn [filter]. destruct v; reflexivity.
    + intros [nodes [kc [ac [N [-> ->]]]]]. rewrite nm_node in N by exact E. destruct N as [v [M [-> ->]]].
      rewrite app_nil_r. replace (collapse [v]) with v by (unfold collapse; cbn [filter]; destruct v; reflexivity). exact M.
Qed.

Lemma collapse_one v : collapse [v] = v.
Proof. unfold collapse. cbn [filter]. destruct v; reflexivity. Qed.

Lemma means_seq_app xs ys w vs kc :
  means_seq (xs ++ ys) w vs kc <->
  exists w1 w2 v1 v2 k1 k2, w = w1 ++ w2 /\ vs = v1 ++ v2 /\ kc = k1 ++ k2
     /\ means_seq xs w1 v1 k1 /\ means_seq ys w2 v2 k2.
Proof.
  split.
  - revert w vs kc. induction xs as [|x xs IH]; intros w vs kc M.
    + exists [], w, [], vs, [], kc. repeat split; auto. constructor.
    + cbn in M. inversion M as [|y ys' w1 ws v vs' cs css M1 M2]; subst.
      destruct (IH _ _ _ M2) as [a [b [va [vb [ka [kb [-> [-> [-> [H1 H2]]]]]]]]]].
      exists (w1 ++ a), b, (v :: va), vb, (cs ++ ka), kb. rewrite !app_assoc. repeat split; auto. constructor; auto.
  - intros [w1 [w2 [v1 [v2 [k1 [k2 [-> [-> [-> [H1 H2]]]]]]]]]]. revert H2.
    induction H1 as [|x xs w ws v vs cs css M M' IH]; intro H2; [exact H2|].
    rewrite <- !app_assoc, <- !app_comm_cons. constructor; auto.
Qed.

Lemma means_seq_length xs w vs kc : means_seq xs w vs kc -> List.length vs = List.length xs.
Proof. induction 1; simpl; congruence. Qed.

Lemma run_none_concat l1 a b nodes1 nodes2 :
  List.length nodes1 = l1 ->
  run_action pyfun (concat_action l1 a b) (nodes1 ++ nodes2)
  = (fst (run_action pyfun a nodes1) ++ fst (run_action pyfun b nodes2),
     snd (run_action pyfun a nodes1) ++ snd (run_action pyfun b nodes2)).
Proof.
  intros <-.
  assert (X : run_action pyfun (AConcat (List.length nodes1) a b) (nodes1 ++ nodes2)
    = (fst (run_action pyfun a nodes1) ++ fst (run_action pyfun b nodes2),
       snd (run_action pyfun a nodes1) ++ snd (run_action pyfun b nodes2))).
  { cbn [run_action]. rewrite firstn_app, skipn_app, Nat.sub_diag, firstn_all, skipn_all. cbn [firstn skipn].
    rewrite app_nil_r. cbn [app]. destruct (run_action pyfun a nodes1), (run_action pyfun b nodes2). reflexivity. }
  destruct a, b; try exact X. reflexivity.
Qed.

Lemma rm_concat r r' w nodes kc ac :
  rmeans (rule_concat r r') w nodes kc ac <->
  exists w1 w2 n1 n2 k1 k2 a1 a2, w = w1 ++ w2 /\ nodes = n1 ++ n2 /\ kc = k1 ++ k2 /\ ac = a1 ++ a2
    /\ rmeans r w1 n1 k1 a1 /\ rmeans r' w2 n2 k2 a2.
Proof.
  unfold GrammarSem.rmeans, rule_concat. cbn [fst snd]. split.
  - intros [vs [M R]]. apply means_seq_app in M.
    destruct M as [w1 [w2 [v1 [v2 [k1 [k2 [-> [-> [-> [M1 M2]]]]]]]]]].
    rewrite run_none_concat in R by (eapply means_seq_length; eauto). injection R as <- <-.
    exists w1, w2, (fst (run_action pyfun (snd r) v1)), (fst (run_action pyfun (snd r') v2)), k1, k2,
      (snd (run_action pyfun (snd r) v1)), (snd (run_action pyfun (snd r') v2)).
    repeat split; auto; [exists v1|exists v2]; (split; [assumption|]); now destruct (run_action _ _ _).
  - intros [w1 [w2 [n1 [n2 [k1 [k2 [a1 [a2 [-> [-> [-> [-> [[v1 [M1 R1]] [v2 [M2 R2]]]]]]]]]]]]]]].
    exists (v1 ++ v2). split.
    + apply means_seq_app. exists w1, w2, v1, v2, k1, k2. auto.
    + rewrite run_none_concat by (eapply means_seq_length; eauto). now rewrite R1, R2.
Qed.

Definition nonskip (l : list val) : list val := filter (fun v => negb (is_vskip v)) l.
Definition unskip (v : val) : list val := if is_vskip v then [] else [v].

Lemma rm_wrap f r w nodes kc ac :
  rmeans (rule_wrap f r) w nodes kc ac <->
  exists n a v c, rmeans r w n kc a /\ call_func f (nonskip n) = (v, c) /\ nodes = unskip v /\ ac = a ++ c.
Proof.
  unfold GrammarSem.rmeans, rule_wrap. cbn [fst snd run_action]. split.
  - intros [vs [M R]]. destruct (run_action pyfun (snd r) vs) as [n a] eqn:E.
    destruct (call_func f (filter (fun v : val => negb (is_vskip v)) n)) as [v c] eqn:E2. injection R as <- <-.
    exists n, a, v, c. repeat split; auto. eauto.
  - intros [n [a [v [c [[vs [M R]] [E [-> ->]]]]]]]. exists vs. split; [exact M|]. rewrite R.
    unfold nonskip in E. rewrite E. reflexivity.
Qed.

(** ** The calculus *)

Lemma nm_seq x y w nodes kc ac :
  nmeans (seq2 x y) w nodes kc ac <->
  exists w1 w2 n1 n2 k1 k2 a1 a2, w = w1 ++ w2 /\ nodes = n1 ++ n2 /\ kc = k1 ++ k2 /\ ac = a1 ++ a2
    /\ ameans x w1 n1 k1 a1 /\ ameans y w2 n2 k2 a2.
Proof.
  unfold nmeans, seq2, ameans. cbn [as_rules info_ephemeral anon i_eph i_name]. rewrite <- rm_concat.
  split; [intros [r [[<-|[]] H]]; exact H|]. intro H. eexists. split; [left; reflexivity|exact H].
Qed.

Lemma nm_alt' x y w nodes kc ac :
  nmeans (Simple anon (as_rules x ++ as_rules y)) w nodes kc ac <-> nmeans x w nodes kc ac \/ nmeans y w nodes kc ac.
Proof.
  unfold nmeans. cbn [as_rules info_ephemeral anon i_eph i_name]. split.
  - intros [r [I H]]. apply in_app_iff in I. destruct I; [left|right]; eauto.
  - intros [[r [I H]]|[r [I H]]]; exists r; rewrite in_app_iff; auto.
Qed.

Lemma nm_term n b w nodes kc ac :
  nmeans (Term n b) w nodes kc ac <->
  exists c, N.testbit b c = true /\ w = [c] /\ nodes = [VStr [c]] /\ kc = [] /\ ac = [].
Proof.
  rewrite nm_node by reflexivity. split.
  - intros [v [M [-> ->]]]. apply means_term in M. destruct M as [c [H [-> [-> ->]]]]. eauto 6.
  - intros [c [H [-> [-> [-> ->]]]]]. eexists. rewrite means_term. eauto 8.
Qed.

Lemma nm_alt x y w nodes kc ac :
  nmeans (alt x y) w nodes kc ac <-> nmeans x w nodes kc ac \/ nmeans y w nodes kc ac.
Proof.
  destruct x; try apply nm_alt'. destruct y; try apply nm_alt'. cbn [alt]. rewrite !nm_term. split.
  - intros [c [H R]]. rewrite N.lor_spec in H. apply orb_true_iff in H. destruct H; [left|right]; eauto.
  - intros [[c [H R]]|[c [H R]]]; exists c; rewrite N.lor_spec, H; auto using orb_true_r.
Qed.

Lemma nm_wrap f x w nodes kc ac : is_class f = false ->
  nmeans (wrap f x) w nodes kc ac <->
  exists n a v c, nmeans x w n kc a /\ call_func f (nonskip n) = (v, c) /\ nodes = unskip v /\ ac = a ++ c.
Proof.
  intro C. unfold nmeans, wrap. rewrite C. cbn [as_rules info_ephemeral i_eph i_name]. split.
  - intros [r [I H]]. apply in_map_iff in I. destruct I as [r0 [<- I]]. apply rm_wrap in H.
    destruct H as [n [a [v [c [H R]]]]]. exists n, a, v, c. split; [eauto|exact R].
  - intros [n [a [v [c [[r [I H]] R]]]]]. exists (rule_wrap f r). split; [now apply in_map|]. apply rm_wrap.
    exists n, a, v, c. auto.
Qed.

Lemma means_wrap f x w v cs :
  means (wrap f x) w v cs <->
  exists n kc a c, nmeans x w n kc a /\ call_func f (nonskip n) = (v, c) /\ cs = kc ++ a ++ c.
Proof.
  unfold wrap. rewrite means_simple. split.
  - intros [r [nodes [kc [ac [I [H [-> ->]]]]]]]. apply in_map_iff in I. destruct I as [r0 [<- I]]. apply rm_wrap in H.
    destruct H as [n [a [v [c [H [E [-> ->]]]]]]]. exists n, kc, a, c. repeat split; [exists r0; auto|].
    rewrite E. f_equal. unfold unskip, collapse. destruct v; reflexivity.
  - intros [n [kc [a [c [[r [I H]] [E ->]]]]]]. exists (rule_wrap f r), (unskip v), kc, (a ++ c). repeat split.
    + now apply in_map.
    + apply rm_wrap. exists n, a, v, c. auto.
    + unfold unskip, collapse. destruct v; reflexivity.
Qed.

Lemma nm_empty w nodes kc ac : nmeans empty w nodes kc ac <-> w = [] /\ nodes = [] /\ kc = [] /\ ac = [].
Proof.
  unfold nmeans, empty. cbn [as_rules info_ephemeral i_eph]. split.
  - intros [r [[<-|[]] [vs [M R]]]]. cbn in M, R. injection R as <- <-. inversion M; subst. auto.
  - intros [-> [-> [-> ->]]]. eexists. split; [left; reflexivity|]. exists []. split; [constructor|reflexivity].
Qed.

(** ** Symbols whose value is their text *)

Definition textual (x : symbol) (L : language) : Prop :=
  forall w nodes kc ac, nmeans x w nodes kc ac <-> L w /\ nodes = [VStr w] /\ kc = [] /\ ac = [].

Lemma textual_means x L : textual x L -> forall w v cs, means x w v cs <-> L w /\ v = VStr w /\ cs = [].
Proof.
  intros T w v cs. rewrite means_nm. split.
  - intros [nodes [kc [ac [N [-> ->]]]]]. apply T in N. destruct N as [H [-> [-> ->]]]. auto.
  - intros [H [-> ->]]. exists [VStr w], [], []. rewrite (T w _ _ _). auto.
Qed.

Lemma textual_am x L : textual x L -> forall w nodes kc ac,
  ameans x w nodes kc ac <-> L w /\ nodes = [VStr w] /\ kc = [] /\ ac = [].
Proof.
  intros T w nodes kc ac. destruct (eph1 x) eqn:E.
  - rewrite am_eph by exact E. apply T.
  - rewrite am_node by exact E. split.
    + intros [v [M [-> ->]]]. apply (textual_means T) in M. destruct M as [H [-> ->]]. auto.
    + intros [H [-> [-> ->]]]. eexists. rewrite (textual_means T). auto.
Qed.

Lemma textual_of_means x L : eph x = false -> (forall w v cs, means x w v cs <-> L w /\ v = VStr w /\ cs = []) -> textual x L.
Proof.
  intros E H w nodes kc ac. rewrite nm_node by exact E. split.
  - intros [v [M [-> ->]]]. apply H in M. destruct M as [A [-> ->]]. auto.
  - intros [A [-> [-> ->]]]. eexists. rewrite H. auto.
Qed.

Lemma textual_ext x L L' : textual x L -> (forall w, L w <-> L' w) -> textual x L'.
Proof. intros T E w nodes kc ac. rewrite (T w nodes kc ac), E. reflexivity. Qed.

Lemma textual_lang_eq x L L' : textual x L -> textual x L' -> forall w, L w <-> L' w.
Proof.
  intros T T' w. split; intro H.
  - assert (X : nmeans x w [VStr w] [] []) by (apply T; auto). apply T' in X. tauto.
  - assert (X : nmeans x w [VStr w] [] []) by (apply T'; auto). apply T in X. tauto.
Qed.

Definition one_of (b : N) : language := fun w => exists c, w = [c] /\ N.testbit b c = true.

Lemma textual_term n b : textual (Term n b) (one_of b).
Proof.
  intros w nodes kc ac. rewrite nm_term. unfold one_of. split.
  - intros [c [H [-> [-> [-> ->]]]]]. eauto 8.
  - intros [[c [-> H]] [-> [-> ->]]]. eauto 8.
Qed.

Lemma textual_alt x y K L : textual x K -> textual y L -> textual (alt x y) (fun w => K w \/ L w).
Proof. intros TX TY w nodes kc ac. rewrite nm_alt, (TX w nodes kc ac), (TY w nodes kc ac). tauto. Qed.

Lemma textual_add x y K L : textual x K -> textual y L -> textual (add x y) (cat K L).
Proof.
  intros TX TY w nodes kc ac. unfold add. rewrite nm_wrap by reflexivity. split.
  - intros [n [a [v [c [H [E [-> ->]]]]]]]. apply nm_seq in H.
    destruct H as [w1 [w2 [n1 [n2 [k1 [k2 [a1 [a2 [-> [-> [-> [-> [H1 H2]]]]]]]]]]]]].
    apply (textual_am TX) in H1. apply (textual_am TY) in H2.
    destruct H1 as [H1 [-> [-> ->]]], H2 as [H2 [-> [-> ->]]]. cbn in E. injection E as <- <-.
    repeat split. exists w1, w2. auto.
  - intros [[w1 [w2 [-> [H1 H2]]]] [-> [-> ->]]].
    exists [VStr w1; VStr w2], [], (VStr (w1 ++ w2)), []. repeat split. apply nm_seq.
    exists w1, w2, [VStr w1], [VStr w2], [], [], [], []. repeat split.
    + now apply (textual_am TX).
    + now apply (textual_am TY).
Qed.

Lemma textual_subst_empty : textual (wrap (FSubst (VStr [])) empty) (fun w => w = []).
Proof.
  intros w nodes kc ac. rewrite nm_wrap by reflexivity. split.
  - intros [n [a [v [c [H [E [-> ->]]]]]]]. apply nm_empty in H. destruct H as [-> [-> [-> ->]]].
    cbn in E. injection E as <- <-. auto.
  - intros [-> [-> [-> ->]]]. exists [], [], (VStr []), []. repeat split. apply nm_empty. auto.
Qed.

Lemma textual_maybe_str x L : textual x L -> textual (maybe_str x) (fun w => L w \/ w = []).
Proof. intro T. apply textual_alt; [exact T|apply textual_subst_empty]. Qed.

Lemma means_rename n p pv e rs w v cs :
  means (Simple (Info n p e) rs) w v cs <-> means (Simple (Info None pv e) rs) w v cs.
Proof. now rewrite !means_simple. Qed.

Lemma means_wrapped i x w v cs : means (Simple i [([x], ANone)]) w v cs <-> means x w v cs.
Proof.
  rewrite means_simple. split.
  - intros [r [nodes [kc [ac [[<-|[]] [R [-> ->]]]]]]]. apply rmeans_one in R. destruct R as [v [M [-> ->]]].
    now rewrite app_nil_r, collapse_one.
  - intro M. exists ([x], ANone), [v], cs, []. rewrite rmeans_one, app_nil_r, collapse_one. repeat split; simpl; eauto.
Qed.

Lemma textual_nonempty_vals x L : textual x L -> forall ws vs cs, many_means x ws vs cs ->
  cs = [] /\ exists ps, vs = map VStr ps /\ ws = List.concat ps /\ Forall L ps.
Proof.
  intros T ws vs cs M. induction M as [|w ws v vs cs css H M [-> [ps [-> [-> F]]]]].
  - split; [reflexivity|]. exists []. auto.
  - apply (textual_means T) in H. destruct H as [H [-> ->]]. split; [reflexivity|].
    exists (w :: ps). auto.
Qed.

Lemma textual_many x L : textual x L -> forall ps, Forall L ps ->
  many_means x (List.concat ps) (map VStr ps) [].
Proof.
  intros T ps F. induction F as [|p ps H F IH]; cbn [map List.concat]; [constructor|].
  change (@nil vcomplaint) with (@nil vcomplaint ++ []). constructor; [|exact IH]. apply (textual_means T). auto.
Qed.

Lemma join_vals_strs ps : join_vals (map VStr ps) = Some (List.concat ps).
Proof. induction ps as [|p ps IH]; cbn; [reflexivity|]. now rewrite IH. Qed.

Lemma pow_concat n L w : pow n L w <-> exists ps, List.length ps = n /\ Forall L ps /\ w = List.concat ps.
Proof.
  revert w. induction n as [|n IH]; intro w; cbn [pow].
  - split; [intros ->; exists []; auto|]. intros [[|p ps] [E [F ->]]]; [reflexivity|discriminate].
  - split.
    + intros [u [v [-> [H1 H2]]]]. apply IH in H2. destruct H2 as [ps [E [F ->]]].
      exists (u :: ps). simpl. auto.
    + intros [[|p ps] [E [F ->]]]; [discriminate|]. inversion F; subst. injection E as E.
      exists p, (List.concat ps). repeat split; auto. apply IH. eauto.
Qed.

(** A list of texts, each in [L], as many as [P] allows. *)
Definition texts (x : symbol) (P : nat -> Prop) (L : language) : Prop :=
  forall w nodes kc ac, nmeans x w nodes kc ac <->
    exists ps, w = List.concat ps /\ Forall L ps /\ P (List.length ps)
      /\ nodes = [VList (map VStr ps)] /\ kc = [] /\ ac = [].

Lemma texts_am x P L : texts x P L -> forall w nodes kc ac,
  ameans x w nodes kc ac <-> exists ps, w = List.concat ps /\ Forall L ps /\ P (List.length ps)
      /\ nodes = [VList (map VStr ps)] /\ kc = [] /\ ac = [].
Proof.
  intros T w nodes kc ac. destruct (eph1 x) eqn:E.
  - rewrite am_eph by exact E. apply T.
  - rewrite am_node by exact E. split.
    + intros [v [M [-> ->]]]. apply means_nm in M. destruct M as [nodes [kc' [ac [N [-> ->]]]]]. apply T in N.
      destruct N as [ps [-> [F [HP [-> [-> ->]]]]]]. exists ps. rewrite collapse_one. auto 8.
    + intros [ps [-> [F [HP [-> [-> ->]]]]]]. exists (VList (map VStr ps)). repeat split.
      apply means_nm. exists [VList (map VStr ps)], [], []. repeat split. apply T. exists ps. auto 8.
Qed.

Lemma texts_unbounded x L : textual x L -> texts (repeated None x) (fun _ => True) L.
Proof.
  intros T w nodes kc ac. unfold repeated. rewrite nm_node by reflexivity. split.
  - intros [v [M [-> ->]]]. apply means_repeated in M. destruct M as [vs [M ->]].
    destruct (textual_nonempty_vals T M) as [-> [ps [-> [-> F]]]]. exists ps. auto 8.
  - intros [ps [-> [F [_ [-> [-> ->]]]]]]. exists (VList (map VStr ps)). repeat split. apply means_repeated.
    exists (map VStr ps). split; [now apply textual_many with L|reflexivity].
Qed.

Lemma means_repeated_bounded i m y w v cs :
  means (Repeated i (Some m) y) w v cs <->
  exists r nodes kc ac, In r (repeated_rules i (Some m) y) /\ rmeans r w nodes kc ac /\ v = collapse nodes /\ cs = kc ++ ac.
Proof.
  set (A := Repeated i (Some m) y : nt (sgrammar rec_rules)). split.
  - intros [t [T1 [T2 T3]]]. inversion T1 as [|A' r f I F]; subst. cbn [g_rules sgrammar rules_of] in I.
    destruct (@tree_rule rec_rules pyfun A r (forest_yield f) v cs (rep_rule_bounded rec_rules I)) as [X _].
    destruct X as [nodes [kc [ac X]]]; eauto. exists r, nodes, kc, ac. auto.
  - intros [r [nodes [kc [ac [I X]]]]].
    destruct (@tree_rule rec_rules pyfun A r w v cs (rep_rule_bounded rec_rules I)) as [_ Y].
    destruct Y as [f [F1 [F2 F3]]]; eauto. exists (Node A (r : rl (sgrammar rec_rules)) f). repeat split; auto. constructor; auto.
Qed.

Lemma nm_repeated_bounded i m y w v cs :
  means (Repeated i (Some m) y) w v cs <->
  exists nodes kc ac, v = collapse nodes /\ cs = kc ++ ac /\
   nmeans (match m with
          | S (S m') => alt (wrap (FSubst (VList [])) empty) (wrap FContinueList (seq2 y (repeated (Some (S m')) y)))
          | _ => alt (wrap (FSubst (VList [])) empty) (wrap FBeginList y)
          end) w nodes kc ac.
Proof.
  rewrite means_repeated_bounded. unfold repeated_rules, nmeans, repeated. split.
  - intros [r [nodes [kc [ac [I [R [-> ->]]]]]]]. exists nodes, kc, ac. repeat split. exists r. split; [|exact R].
    destruct m as [|[|m']]; exact I.
  - intros [nodes [kc [ac [-> [-> [r [I R]]]]]]]. exists r, nodes, kc, ac. repeat split; [|exact R].
    destruct m as [|[|m']]; exact I.
Qed.

Lemma nm_subst_nil w nodes kc ac :
  nmeans (wrap (FSubst (VList [])) empty) w nodes kc ac <-> w = [] /\ nodes = [VList []] /\ kc = [] /\ ac = [].
Proof.
  rewrite nm_wrap by reflexivity. split.
  - intros [n [a [v [c [H [E [-> ->]]]]]]]. apply nm_empty in H. destruct H as [-> [-> [-> ->]]].
    cbn in E. injection E as <- <-. auto.
  - intros [-> [-> [-> ->]]]. exists [], [], (VList []), []. repeat split. apply nm_empty. auto.
Qed.

Lemma texts_bounded x L : textual x L -> forall m, texts (repeated (Some m) x) (fun n => n <= Nat.max 1 m) L.
Proof.
  intros T.
  assert (B : forall w nodes kc ac, nmeans (wrap FBeginList x) w nodes kc ac <->
     L w /\ nodes = [VList [VStr w]] /\ kc = [] /\ ac = []).
  { intros w nodes kc ac. rewrite nm_wrap by reflexivity. split.
    - intros [n [a [v [c [H [E [-> ->]]]]]]]. apply T in H. destruct H as [H [-> [-> ->]]]. cbn in E. injection E as <- <-. auto.
    - intros [H [-> [-> ->]]]. exists [VStr w], [], (VList [VStr w]), []. repeat split. apply T. auto. }
  assert (one : forall (w : str) (nodes : list val) (kc ac : list vcomplaint), (w = [] /\ nodes = [VList []] /\ kc = [] /\ ac = []) \/ (L w /\ nodes = [VList [VStr w]] /\ kc = [] /\ ac = []) <->
     exists ps, w = List.concat ps /\ Forall L ps /\ List.length ps <= 1 /\ nodes = [VList (map VStr ps)] /\ kc = [] /\ ac = []).
  { intros w nodes kc ac. split.
    - intros [[-> [-> [-> ->]]]|[H [-> [-> ->]]]]; [exists []|exists [w]]; cbn; rewrite ?app_nil_r; repeat split; auto.
    - intros [[|p [|q ps]] [-> [F [Le [-> [-> ->]]]]]]; [left; auto|right|simpl in Le; lia].
      inversion F; subst. cbn. rewrite app_nil_r. auto. }
  induction m as [m IH] using lt_wf_ind. intros w nodes kc ac. unfold repeated. rewrite nm_node by reflexivity.
  assert (Q : (exists v, means (Repeated (Info None false (Some false)) (Some m) x) w v kc /\ nodes = [v] /\ ac = []) <->
     exists nodes' kc' ac', nodes = [collapse nodes'] /\ kc = kc' ++ ac' /\ ac = [] /\
       nmeans (match m with
          | S (S m') => alt (wrap (FSubst (VList [])) empty) (wrap FContinueList (seq2 x (repeated (Some (S m')) x)))
          | _ => alt (wrap (FSubst (VList [])) empty) (wrap FBeginList x)
          end) w nodes' kc' ac').
  { split.
    - intros [v [M [-> ->]]]. apply nm_repeated_bounded in M. destruct M as [n' [k' [a' [-> [-> N]]]]]. exists n', k', a'. auto.
    - intros [n' [k' [a' [-> [-> [-> N]]]]]]. exists (collapse n'). repeat split. apply nm_repeated_bounded. exists n', k', a'. auto. }
  rewrite Q. clear Q. destruct m as [|[|m']].
  - split.
    + intros [n' [k' [a' [-> [-> [-> N]]]]]]. apply nm_alt in N. rewrite nm_subst_nil, B, one in N.
      destruct N as [ps [-> [F [Le [-> [-> ->]]]]]]. exists ps. rewrite collapse_one. auto 8.
    + intros [ps [-> [F [Le [-> [-> ->]]]]]]. exists [VList (map VStr ps)], [], []. rewrite collapse_one. repeat split.
      apply nm_alt. rewrite nm_subst_nil, B, one. exists ps. auto 8.
  - split.
    + intros [n' [k' [a' [-> [-> [-> N]]]]]]. apply nm_alt in N. rewrite nm_subst_nil, B, one in N.
      destruct N as [ps [-> [F [Le [-> [-> ->]]]]]]. exists ps. rewrite collapse_one. auto 8.
    + intros [ps [-> [F [Le [-> [-> ->]]]]]]. exists [VList (map VStr ps)], [], []. rewrite collapse_one. repeat split.
      apply nm_alt. rewrite nm_subst_nil, B, one. exists ps. auto 8.
  - assert (T' := texts_am (IH (S m') ltac:(lia))). split.
    + intros [n' [k' [a' [-> [-> [-> N]]]]]]. apply nm_alt in N. destruct N as [N|N].
      * apply nm_subst_nil in N. destruct N as [-> [-> [-> ->]]]. exists []. cbn. repeat split; auto. lia.
      * apply nm_wrap in N; [|reflexivity]. destruct N as [n [a [v [c [N [E [-> ->]]]]]]]. apply nm_seq in N.
        destruct N as [w1 [w2 [n1 [n2 [k1 [k2 [a1 [a2 [-> [-> [-> [-> [H1 H2]]]]]]]]]]]]].
        apply (textual_am T) in H1. destruct H1 as [H1 [-> [-> ->]]].
        apply T' in H2. destruct H2 as [ps [-> [F [Le [-> [-> ->]]]]]]. cbn in E. injection E as <- <-.
        exists (w1 :: ps). cbn. repeat split; auto. lia.
    + intros [ps [-> [F [Le [-> [-> ->]]]]]]. exists [VList (map VStr ps)], [], []. rewrite collapse_one. repeat split.
      apply nm_alt. destruct ps as [|p ps]; [left; apply nm_subst_nil; auto|right].
      inversion F; subst. apply nm_wrap; [reflexivity|]. exists [VStr p; VList (map VStr ps)], [], (VList (map VStr (p :: ps))), [].
      repeat split. apply nm_seq. exists p, (List.concat ps), [VStr p], [VList (map VStr ps)], [], [], [], [].
      repeat split. { now apply (textual_am T). }
      apply T'. exists ps. repeat split; auto. simpl in Le. lia.
Qed.

Lemma filter_strs ps : filter (fun v => negb (is_vskip v)) (map VStr ps) = map VStr ps.
Proof. induction ps; simpl; congruence. Qed.

Lemma texts_copies x L : textual x L -> forall n r Q,
  (forall w nodes kc ac, ameans r w nodes kc ac <-> exists ps, w = List.concat ps /\ Forall L ps /\ List.length ps = Q
      /\ nodes = map VStr ps /\ kc = [] /\ ac = []) ->
  (forall w nodes kc ac, ameans (copies n r x) w nodes kc ac <-> exists ps, w = List.concat ps /\ Forall L ps /\ List.length ps = Q + n
      /\ nodes = map VStr ps /\ kc = [] /\ ac = []).
Proof.
  intros T n. induction n as [|n IH]; intros r Q H.
  - cbn [copies]. rewrite Nat.add_0_r. exact H.
  - cbn [copies]. replace (Q + S n) with (S Q + n) by lia. apply IH. intros w nodes kc ac.
    rewrite am_eph by reflexivity. rewrite nm_seq. split.
    + intros [w1 [w2 [n1 [n2 [k1 [k2 [a1 [a2 [-> [-> [-> [-> [H1 H2]]]]]]]]]]]]].
      apply H in H1. destruct H1 as [ps [-> [F [Le [-> [-> ->]]]]]].
      unfold ameans in H2. rewrite group_not_ephemeral, rmeans_one in H2. destruct H2 as [v [M [-> ->]]].
      rewrite means_group in M. apply (textual_means T) in M. destruct M as [HL [-> ->]].
      exists (ps ++ [w2]). rewrite concat_app, map_app, app_length. cbn. rewrite app_nil_r. repeat split; auto; [|lia].
      apply Forall_app. auto.
    + intros [ps [-> [F [Le [-> [-> ->]]]]]]. destruct (@exists_last _ ps) as [ps' [p ->]]. { destruct ps; simpl in Le; [lia|discriminate]. }
      apply Forall_app in F. destruct F as [F1 F2]. inversion F2; subst. rewrite app_length in Le. simpl in Le.
      exists (List.concat ps'), p, (map VStr ps'), [VStr p], [], [], [], []. rewrite concat_app, map_app. cbn. rewrite app_nil_r. repeat split.
      * apply H. exists ps'. repeat split; auto. lia.
      * unfold ameans. rewrite group_not_ephemeral, rmeans_one. exists (VStr p). repeat split. rewrite means_group.
        apply (textual_means T). auto.
Qed.

Lemma texts_ext x P P' L : texts x P L -> (forall n, P n <-> P' n) -> texts x P' L.
Proof.
  intros T E w nodes kc ac. rewrite (T w nodes kc ac). split; intros [ps [H1 [H2 [H3 H4]]]]; exists ps; (split; [exact H1|]);
    (split; [exact H2|]); (split; [apply E; exact H3|exact H4]).
Qed.

Lemma texts_times min_ max_ x L : textual x L ->
  max_ <> Some 0 -> match max_ with Some m => min_ <= m | None => True end ->
  texts (times min_ max_ x) (count_ok min_ max_) L.
Proof.
  intros T N0 LE. unfold times, count_ok. destruct min_ as [|mn].
  - destruct max_ as [m|].
    + eapply texts_ext; [now apply texts_bounded|]. intro n. cbn. destruct m; [congruence|]. lia.
    + eapply texts_ext; [now apply texts_unbounded|]. intro n. cbn. lia.
  - set (k := S mn) in *.
    assert (M : texts (wrap FAsList (copies k empty x)) (fun n => n = k) L).
    { intros w nodes kc ac. rewrite nm_wrap by reflexivity.
      assert (C := @texts_copies x L T k empty 0). 
      assert (E0 : forall w nodes kc ac, ameans empty w nodes kc ac <-> exists ps, w = List.concat ps /\ Forall L ps /\ List.length ps = 0
         /\ nodes = map VStr ps /\ kc = [] /\ ac = []).
      { intros w0 nodes0 kc0 ac0. rewrite am_eph by reflexivity. rewrite nm_empty. split.
        - intros [-> [-> [-> ->]]]. exists []. auto 8.
        - intros [[|p ps] [-> [F [Le [-> [-> ->]]]]]]; [auto|discriminate]. }
      specialize (C E0). clear E0.
      assert (Ek : eph1 (copies k empty x) = true).
      { assert (Z : forall n r y, eph1 r = true -> eph1 (copies n r y) = true).
        { induction n as [|n IHn]; intros r y E; [exact E|]. cbn [copies]. apply IHn. reflexivity. }
        apply Z. reflexivity. }
      split.
      - intros [n [a [v [c [H [E [-> ->]]]]]]]. rewrite <- am_eph in H by exact Ek. apply C in H.
        destruct H as [ps [-> [F [Le [-> [-> ->]]]]]]. cbn in E. unfold nonskip in E. rewrite filter_strs in E. injection E as <- <-.
        exists ps. auto 8.
      - intros [ps [-> [F [Le [-> [-> ->]]]]]]. exists (map VStr ps), [], (VList (map VStr ps)), []. cbn. unfold nonskip. rewrite filter_strs.
        repeat split. rewrite <- am_eph by exact Ek. apply C. exists ps. auto 8. }
    assert (S2 : forall Q : nat -> Prop, forall y, texts y Q L -> texts (add (wrap FAsList (copies k empty x)) y) (fun n => k <= n /\ Q (n - k)) L).
    { intros Q y TY w nodes kc ac. unfold add. rewrite nm_wrap by reflexivity. split.
      - intros [n [a [v [c [H [E [-> ->]]]]]]]. apply nm_seq in H.
        destruct H as [w1 [w2 [n1 [n2 [k1 [k2 [a1 [a2 [-> [-> [-> [-> [H1 H2]]]]]]]]]]]]].
        apply (texts_am M) in H1. destruct H1 as [ps [-> [F [Le [-> [-> ->]]]]]].
        apply (texts_am TY) in H2. destruct H2 as [qs [-> [F' [Le' [-> [-> ->]]]]]]. cbn in E. injection E as <- <-.
        exists (ps ++ qs). rewrite concat_app, map_app, app_length. repeat split; auto.
        + apply Forall_app. auto.
        + lia.
        + replace (List.length ps + List.length qs - k) with (List.length qs) by lia. exact Le'.
      - intros [ps [-> [F [[Le HQ] [-> [-> ->]]]]]].
        rewrite <- (firstn_skipn k ps) in F. apply Forall_app in F. destruct F as [F1 F2].
        exists [VList (map VStr (firstn k ps)); VList (map VStr (skipn k ps))], [], (VList (map VStr ps)), [].
        split; [|split; [cbn [Grammar.call_func nonskip filter is_vskip negb]; now rewrite <- map_app, firstn_skipn|split; reflexivity]].
        apply nm_seq. exists (List.concat (firstn k ps)), (List.concat (skipn k ps)), [VList (map VStr (firstn k ps))], [VList (map VStr (skipn k ps))], [], [], [], [].
        rewrite <- concat_app, firstn_skipn. repeat split.
        + apply (texts_am M). exists (firstn k ps). repeat split; auto. rewrite firstn_length. lia.
        + apply (texts_am TY). exists (skipn k ps). repeat split; auto. now rewrite skipn_length. }
    destruct max_ as [m|].
    + destruct (Nat.eqb_spec m k) as [->|Nk].
      * eapply texts_ext; [exact M|]. intro n. cbn beta iota. lia.
      * cbn [option_map]. eapply texts_ext; [apply S2, texts_bounded, T|]. intro n. cbn beta iota. lia.
    + cbn [option_map]. eapply texts_ext; [apply S2, texts_unbounded, T|]. intro n. cbn beta iota. lia.
Qed.

Lemma textual_join x P L : texts x P L -> textual (wrap FJoin x) (fun w => exists n, P n /\ pow n L w).
Proof.
  intros T w nodes kc ac. rewrite nm_wrap by reflexivity. split.
  - intros [n [a [v [c [H [E [-> ->]]]]]]]. apply T in H. destruct H as [ps [-> [F [HP [-> [-> ->]]]]]].
    cbn in E. rewrite join_vals_strs in E. injection E as <- <-. repeat split. exists (List.length ps). split; [exact HP|].
    apply pow_concat. eauto.
  - intros [[n [HP H]] [-> [-> ->]]]. apply pow_concat in H. destruct H as [ps [<- [F ->]]].
    exists [VList (map VStr ps)], [], (VStr (List.concat ps)), []. cbn. rewrite join_vals_strs. repeat split. apply T. exists ps. auto 8.
Qed.

Lemma textual_string_times min_ max_ x L : textual x L ->
  max_ <> Some 0 -> match max_ with Some m => min_ <= m | None => True end ->
  textual (string_times min_ max_ x) (fun w => exists n, count_ok min_ max_ n /\ pow n L w).
Proof. intros T H1 H2. apply textual_join. now apply texts_times. Qed.
Lemma textual_string x L : textual x L -> textual (string_ x) (fun w => exists n, pow n L w).
Proof.
  intro T. eapply textual_ext; [apply (@textual_string_times 0 None x L T); [discriminate|exact I]|].
  intro w. unfold count_ok. split; [intros [n [_ H]]; eauto|intros [n H]; exists n; split; [split; [lia|exact I]|exact H]].
Qed.
Lemma textual_string1 x L : textual x L -> textual (string1 x) (fun w => exists n, 1 <= n /\ pow n L w).
Proof.
  intro T. eapply textual_ext; [apply (@textual_string_times 1 None x L T); [discriminate|exact I]|].
  intro w. unfold count_ok. split; [intros [n [[L1 _] H]]; eauto|intros [n [L1 H]]; exists n; split; [split; [lia|exact I]|exact H]].
Qed.

(** Literals keep the letters as they were written. *)
Lemma textual_literal_c cs c : textual (literal_c cs c) (fun w => exists d, w = [d] /\ same_c cs c d).
Proof.
  assert (O : forall v, textual (octet v) (fun w => w = [v])).
  { intro v. unfold octet, octet_range. eapply textual_ext; [apply textual_term|]. intro w. unfold one_of. split.
    - intros [d [-> H]]. pose proof (testbit_octet v d) as X. unfold octet, octet_range in X. cbn [bits_of] in X.
      rewrite X in H. apply N.eqb_eq in H. now subst.
    - intros ->. exists v. split; [reflexivity|]. pose proof (testbit_octet v v) as X. unfold octet, octet_range in X. cbn [bits_of] in X.
      rewrite X. apply N.eqb_refl. }
  unfold literal_c, same_c. destruct cs.
  - eapply textual_ext; [apply O|]. intro w. split; [intros ->; eauto|intros [d [-> ->]]; reflexivity].
  - eapply textual_ext; [apply textual_alt; apply O|]. intro w. split.
    + intros [->| ->]; eexists; (split; [reflexivity|]); apply lower_cases; auto.
    + intros [d [-> H]]. apply lower_cases in H. destruct H as [->| ->]; auto.
Qed.

Lemma textual_literal cs x : textual (literal' cs x) (Forall2 (same_c cs) x).
Proof.
  assert (X : forall x r (K : language), 
     (forall w nodes kc ac, ameans r w nodes kc ac <-> K w /\ nodes = map (fun c => VStr [c]) w /\ kc = [] /\ ac = []) -> eph1 r = true ->
     forall w nodes kc ac, nmeans (fold_left (fun r c => seq2 r (literal_c cs c)) x r) w nodes kc ac <->
       cat K (Forall2 (same_c cs) x) w /\ nodes = map (fun c => VStr [c]) w /\ kc = [] /\ ac = []).
  { clear x. induction x as [|c x IH]; intros r K H E w nodes kc ac; cbn [fold_left].
    - rewrite <- am_eph by exact E. rewrite H.
      assert (Y : cat K (Forall2 (same_c cs) []) w <-> K w).
      { rewrite <- (cat_nil_r K w). apply cat_ext; [tauto|]. intro u. split; [intro Z; now inversion Z|intros ->; constructor]. }
      rewrite Y. reflexivity.
    - rewrite (IH (seq2 r (literal_c cs c)) (cat K (fun w => exists d, w = [d] /\ same_c cs c d))).
      + rewrite cat_assoc.
        assert (Y : cat K (cat (fun w => exists d, w = [d] /\ same_c cs c d) (Forall2 (same_c cs) x)) w <-> cat K (Forall2 (same_c cs) (c :: x)) w).
        { apply cat_ext; [tauto|]. intro u. split.
          - intros [u1 [u2 [-> [[d [-> H1]] H2]]]]. constructor; auto.
          - intro Z. inversion Z as [|a d l l' H1 H2]; subst. exists [d], l'. repeat split; eauto. }
        rewrite Y. reflexivity.
      + intros w0 n0 k0 a0. rewrite am_eph by reflexivity. rewrite nm_seq. split.
        * intros [w1 [w2 [n1 [n2 [k1 [k2 [a1 [a2 [-> [-> [-> [-> [H1 H2]]]]]]]]]]]]].
          apply H in H1. destruct H1 as [H1 [-> [-> ->]]]. apply (textual_am (textual_literal_c cs c)) in H2.
          destruct H2 as [[d [-> H2]] [-> [-> ->]]]. rewrite map_app. repeat split. exists w1, [d]. eauto 6.
        * intros [[w1 [w2 [-> [H1 [d [-> H2]]]]]] [-> [-> ->]]].
          exists w1, [d], (map (fun c => VStr [c]) w1), [VStr [d]], [], [], [], []. rewrite map_app. repeat split.
          -- apply H. auto.
          -- apply (textual_am (textual_literal_c cs c)). eauto 6.
      + reflexivity. }
  assert (J : forall w : str, join_vals (map (fun c => VStr [c]) w) = Some w).
  { induction w as [|c w IH]; cbn; [reflexivity|]. now rewrite IH. }
  assert (Fs : forall w : str, nonskip (map (fun c => VStr [c]) w) = map (fun c => VStr [c]) w).
  { induction w as [|c w IH]; cbn; [reflexivity|]. unfold nonskip in IH. now rewrite IH. }
  assert (Y : textual (wrap FJoinArgs (fold_left (fun r c => seq2 r (literal_c cs c)) x empty)) (Forall2 (same_c cs) x)).
  { assert (X0 := X x empty (fun w => w = [])). intros w nodes kc ac. rewrite nm_wrap by reflexivity.
    assert (Z : forall w nodes kc ac, nmeans (fold_left (fun r c => seq2 r (literal_c cs c)) x empty) w nodes kc ac <->
       Forall2 (same_c cs) x w /\ nodes = map (fun c => VStr [c]) w /\ kc = [] /\ ac = []).
    { intros w0 n0 k0 a0. rewrite X0; [now rewrite cat_nil_l| |reflexivity].
      intros w1 n1 k1 a1. rewrite am_eph by reflexivity. rewrite nm_empty. split; [intros [-> [-> [-> ->]]]; auto|intros [-> [-> [-> ->]]]; auto]. }
    split.
    - intros [n [a [v [c [H [E [-> ->]]]]]]]. apply Z in H. destruct H as [H [-> [-> ->]]]. rewrite Fs in E. cbn in E. rewrite J in E.
      injection E as <- <-. auto.
    - intros [H [-> [-> ->]]]. exists (map (fun c => VStr [c]) w), [], (VStr w), []. rewrite Fs. cbn. rewrite J. repeat split.
      apply Z. auto. }
  destruct x as [|c [|d x]]; try exact Y. cbn [literal']. eapply textual_ext; [apply textual_literal_c|]. intro w. split.
  - intros [d [-> H]]. constructor; [exact H|constructor].
  - intro H. inversion H as [|a d l l' H1 H2]; subst. inversion H2; subst. eauto.
Qed.

(** Sealing changes nothing. *)
Lemma means_info i i' m y w v cs : means (Repeated i m y) w v cs <-> means (Repeated i' m y) w v cs.
Proof.
  destruct m as [m|]; [now rewrite !nm_repeated_bounded|now rewrite !means_repeated].
Qed.

Lemma means_seal n p x w v cs : means (seal n p x) w v cs <-> means x w v cs.
Proof.
  destruct x as [[nm|] b|[[nm|] pv e] rs|[[nm|] pv e] m y|nm]; cbn [seal]; try apply means_wrapped.
  - now rewrite !means_term.
  - now rewrite !means_simple.
  - apply means_info.
Qed.

Definition not_forced (x : symbol) : bool :=
  match x with Simple i _ => match i_eph i with Some true => false | _ => true end | _ => true end.

Lemma eph_seal n p x : not_forced x = true -> eph (seal n p x) = false.
Proof.
  destruct x as [[nm|] b|[[nm|] pv [[|]|]] rs|[[nm|] pv e] m y|nm]; cbn; try reflexivity; discriminate.
Qed.

Lemma textual_seal n p x L : not_forced x = true -> textual x L -> textual (seal n p x) L.
Proof.
  intros NF T. apply textual_of_means; [now apply eph_seal|]. intros w v cs. rewrite means_seal. now apply textual_means.
Qed.

End Vals.
