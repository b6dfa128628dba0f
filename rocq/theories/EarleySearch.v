(** The search for results: it ends, everything it yields is the meaning of a
    derivation tree, and it yields something for every derivable span. *)
From Coq Require Import ZifyBool ZifyNat ZifyN Wf_nat.
From Verif Require Import Base Earley EarleySpec EarleyChart EarleyItems.
Open Scope nat_scope.
Unset Strict Implicit.

Lemma filter_less {X} (p q : X -> bool) l x :
  (forall y, q y = true -> p y = true) -> In x l -> p x = true -> q x = false ->
  List.length (filter q l) < List.length (filter p l).
Proof.
  intros S I P Q. assert (LE : forall l, List.length (filter q l) <= List.length (filter p l)).
  { induction l0 as [|y l0 IH]; simpl; [lia|]. destruct (q y) eqn:E; [rewrite (S _ E)|destruct (p y)]; simpl; lia. }
  induction l as [|y l IH]; [destruct I|]. destruct I as [->|I]; simpl.
  - rewrite P, Q. simpl. specialize (LE l). lia.
  - specialize (IH I). destruct (q y) eqn:E; [rewrite (S _ E)|destruct (p y)]; simpl; lia.
Qed.

Lemma concat_map_mono {X Y} (f g : X -> out (list Y)) l zs :
  (forall x ys, f x = Done ys -> g x = Done ys) ->
  concat_map_out f l = Done zs -> concat_map_out g l = Done zs.
Proof.
  intro E. revert zs. induction l as [|x l IH]; intros zs H; [assumption|]. cbn [concat_map_out] in *.
  obinds H. obinds H. rewrite (E _ _ H1). cbn [obind]. rewrite (IH _ H0). cbn [obind]. assumption.
Qed.

Section Trees.
Context {G : grammar}.
Implicit Types (t : tree G) (f : forest G).

(** * Trees over positions of the input *)

Definition tree_at (data : str) x t (k i : nat) : Prop :=
  tree_of x t /\ i = k + List.length (tree_yield t) /\ i <= List.length data
  /\ slice data k i = tree_yield t.

Definition forest_at (data : str) ss f (k i : nat) : Prop :=
  forest_of ss f /\ i = k + List.length (forest_yield f) /\ i <= List.length data
  /\ slice data k i = forest_yield f.

Fixpoint fsnoc f t : forest G :=
  match f with
  | Fnil => Fcons t Fnil
  | Fcons u f' => Fcons u (fsnoc f' t)
  end.

Lemma fsnoc_yield f t : forest_yield (fsnoc f t) = forest_yield f ++ tree_yield t.
Proof.
  induction f as [|u f IH]; cbn [fsnoc]; autorewrite with trees.
  - now rewrite app_nil_r.
  - rewrite IH. now rewrite app_assoc.
Qed.

Lemma fsnoc_of ss x f t : forest_of ss f -> tree_of x t -> forest_of (ss ++ [x]) (fsnoc f t).
Proof.
  intro H. induction H; intros; simpl;
    repeat (constructor; auto).
Qed.

Lemma fsnoc_inv ss x f : forest_of (ss ++ [x]) f ->
  exists f' t, f = fsnoc f' t /\ forest_of ss f' /\ tree_of x t.
Proof.
  revert f. induction ss as [|y ss IH]; intros f H; simpl in H; inversion H; subst.
  - inversion H4; subst. exists Fnil, t. repeat split; auto; constructor.
  - apply IH in H4. destruct H4 as [f' [t' [-> [H4 H5]]]].
    exists (Fcons t f'), t'. repeat split; auto. now constructor.
Qed.

Lemma slice_split data k i u v : slice data k i = u ++ v -> i = k + List.length (u ++ v) ->
  i <= List.length data ->
  slice data k (k + List.length u) = u /\ slice data (k + List.length u) i = v.
Proof.
  intros H E L. rewrite app_length in E.
  rewrite <- (@slice_app data k (k + List.length u) i) in H by lia.
  assert (L1 : List.length (slice data k (k + List.length u)) = List.length u).
  { rewrite slice_length; lia. }
  split.
  - apply (f_equal (firstn (List.length u))) in H.
    rewrite <- L1 in H at 1. rewrite !firstn_app, !Nat.sub_diag, !firstn_all in H. simpl in H.
    now rewrite !app_nil_r in H.
  - apply (f_equal (skipn (List.length u))) in H.
    rewrite <- L1 in H at 1. rewrite !skipn_app, !Nat.sub_diag, !skipn_all in H. exact H.
Qed.

Lemma forest_at_snoc data ss x f t k j i :
  forest_at data ss f k j -> tree_at data x t j i -> forest_at data (ss ++ [x]) (fsnoc f t) k i.
Proof.
  intros [H1 [H2 [H3 H4]]] [H5 [H6 [H7 H8]]].
  repeat split.
  - now apply fsnoc_of.
  - rewrite fsnoc_yield, app_length. lia.
  - assumption.
  - rewrite fsnoc_yield, <- H4, <- H8. symmetry. apply slice_app; lia.
Qed.

Lemma forest_at_snoc_inv data ss x f k i :
  forest_at data (ss ++ [x]) f k i ->
  exists f' t j, f = fsnoc f' t /\ forest_at data ss f' k j /\ tree_at data x t j i
    /\ j = k + List.length (forest_yield f').
Proof.
  intros [H1 [H2 [H3 H4]]]. apply fsnoc_inv in H1. destruct H1 as [f' [t [-> [H5 H6]]]].
  rewrite fsnoc_yield in H2, H4. destruct (slice_split H4 H2 H3) as [S1 S2].
  exists f', t, (k + List.length (forest_yield f')). rewrite app_length in H2.
  repeat split; auto; lia.
Qed.

Lemma forest_at_nil data k : k <= List.length data -> forest_at data [] Fnil k k.
Proof. intro. repeat split; simpl; try lia; [constructor|apply slice_nil]. Qed.

Lemma tree_at_node data A r f k i : In r (g_rules A) -> forest_at data (g_rhs r) f k i ->
  tree_at data (Nt A) (Node A r f) k i.
Proof. intros I [H1 [H2 [H3 H4]]]. repeat split; auto. now constructor. Qed.

Lemma tree_at_node_inv data A t k i : tree_at data (Nt A) t k i ->
  exists r f, t = Node A r f /\ In r (g_rules A) /\ forest_at data (g_rhs r) f k i.
Proof.
  intros [H1 H2]. inversion H1; subst. exists r, f. repeat split; auto; apply H2.
Qed.

Lemma dspan_forest data ss k i : dspan data ss k i -> exists f, forest_at data ss f k i.
Proof.
  induction 1 as [k L|bits c ss k i E M D [f IH]|A r ss k j i Ir D1 [f1 IH1] D2 [f2 IH2]].
  - exists Fnil. now apply forest_at_nil.
  - exists (Fcons (Leaf c) f). destruct IH as [H1 [H2 [H3 H4]]].
    repeat split.
    + constructor; auto. now constructor.
    + autorewrite with trees. simpl. lia.
    + assumption.
    + rewrite (slice_cons E) by lia. autorewrite with trees. now rewrite H4.
  - exists (Fcons (Node A r f1) f2). destruct IH1 as [H1 [H2 [H3 H4]]]. destruct IH2 as [H5 [H6 [H7 H8]]].
    repeat split.
    + constructor; auto. now constructor.
    + autorewrite with trees. rewrite app_length. lia.
    + assumption.
    + autorewrite with trees. rewrite <- H4, <- H8. symmetry. apply slice_app; lia.
Qed.

Lemma forest_derives : (forall x t, tree_of x t -> derives [x] (tree_yield t))
  /\ (forall ss f, @forest_of G ss f -> derives ss (forest_yield f)).
Proof.
  apply tree_forest_of_ind; intros; autorewrite with trees.
  - constructor; auto. constructor.
  - rewrite <- (app_nil_r (forest_yield f)). econstructor; eauto. constructor.
  - constructor.
  - change (x :: ss) with ([x] ++ ss). now apply derives_app.
Qed.

Lemma forest_at_dspan data ss f k i : forest_at data ss f k i -> dspan data ss k i.
Proof.
  intros [H1 [H2 [H3 H4]]]. apply forest_derives in H1.
  pose proof (derives_dspan H1 (firstn k data) (skipn i data)) as D.
  rewrite firstn_length, Nat.min_l in D by lia. rewrite <- H2 in D.
  assert (E : firstn k data ++ forest_yield f ++ skipn i data = data).
  { rewrite <- H4, <- slice_prefix, app_assoc, slice_app by lia.
    rewrite slice_prefix. apply firstn_skipn. }
  now rewrite E in D.
Qed.

(** * Subtrees *)

Inductive subtree : nat -> tree G -> nat -> tree G -> Prop :=
| sub_refl k t : subtree k t k t
| sub_node k A r f k' t' : subforest k f k' t' -> subtree k (Node A r f) k' t'
with subforest : nat -> forest G -> nat -> tree G -> Prop :=
| subf_here k t f k' t' : subtree k t k' t' -> subforest k (Fcons t f) k' t'
| subf_next k t f k' t' :
    subforest (k + List.length (tree_yield t)) f k' t' -> subforest k (Fcons t f) k' t'.

Scheme subtree_mut := Induction for subtree Sort Prop
  with subforest_mut := Induction for subforest Sort Prop.
Combined Scheme subtree_forest_ind from subtree_mut, subforest_mut.

Lemma subf_snoc_l k f t k' t' : subforest k f k' t' -> subforest k (fsnoc f t) k' t'.
Proof.
  intro H. induction H; simpl.
  - now constructor.
  - now apply subf_next.
Qed.

Lemma subf_snoc_r f : forall k t k' t', subtree (k + List.length (forest_yield f)) t k' t' ->
  subforest k (fsnoc f t) k' t'.
Proof.
  induction f as [|u f IH]; cbn [fsnoc]; intros k t k' t' H; autorewrite with trees in H; cbn [List.length] in H.
  - constructor. now rewrite Nat.add_0_r in H.
  - apply subf_next. apply IH. rewrite app_length in H. now rewrite <- Nat.add_assoc.
Qed.

Lemma sub_trans : (forall k1 t1 k2 t2, subtree k1 t1 k2 t2 -> forall k3 t3, subtree k2 t2 k3 t3 -> subtree k1 t1 k3 t3)
  /\ (forall k1 f1 k2 t2, subforest k1 f1 k2 t2 -> forall k3 t3, subtree k2 t2 k3 t3 -> subforest k1 f1 k3 t3).
Proof.
  apply subtree_forest_ind; intros; auto.
  - constructor. auto.
  - constructor. auto.
  - apply subf_next. auto.
Qed.

Fixpoint tsize t : nat :=
  match t with Leaf _ => 1 | Node _ _ f => S (fsize f) end
with fsize f : nat :=
  match f with Fnil => 0 | Fcons t f' => tsize t + fsize f' end.

Lemma sub_size : (forall k t k' t', subtree k t k' t' -> tsize t' <= tsize t)
  /\ (forall k f k' t', subforest k f k' t' -> tsize t' <= fsize f).
Proof. apply subtree_forest_ind; simpl; intros; lia. Qed.

(** A subtree of a derivation tree is a derivation tree of its part of the
    input. *)
Lemma sub_at data : (forall k t k' t', subtree k t k' t' -> forall x i, tree_at data x t k i ->
     exists x', tree_at data x' t' k' (k' + List.length (tree_yield t')))
  /\ (forall k f k' t', subforest k f k' t' -> forall ss i, forest_at data ss f k i ->
     exists x', tree_at data x' t' k' (k' + List.length (tree_yield t'))).
Proof.
  apply subtree_forest_ind; intros.
  - exists x. destruct H as [H1 [-> H2]]. repeat split; auto; apply H2.
  - destruct H0 as [H1 [H2 [H3 H4]]]. inversion H1; subst. eapply H. repeat split; eauto.
  - destruct H0 as [H1 [H2 [H3 H4]]]. inversion H1; subst.
    autorewrite with trees in *.
    destruct (slice_split H4 eq_refl H3) as [S1 S2]. eapply H. repeat split; eauto.
    rewrite app_length in H3. lia.
  - destruct H0 as [H1 [H2 [H3 H4]]]. inversion H1; subst.
    autorewrite with trees in *.
    destruct (slice_split H4 eq_refl H3) as [S1 S2]. eapply H. repeat split; eauto.
    + rewrite app_length in *. lia.
    + rewrite <- S2 at 2. f_equal. rewrite app_length. lia.
Qed.

(** The item of a node, and whether one of those ending at [i] is in [Q]. *)
Definition node_hits (Q : list (item G)) (i : nat) (k' : nat) (v : tree G) : Prop :=
  exists A r g, v = Node A r g /\ k' + List.length (forest_yield g) = i
    /\ In (Item A r (List.length (g_rhs r)) k') Q.

Definition hits Q k t i : Prop := exists k' v, subtree k t k' v /\ node_hits Q i k' v.
Definition fhits Q k f i : Prop := exists k' v, subforest k f k' v /\ node_hits Q i k' v.

Lemma hits_nil k t i : ~ hits [] k t i.
Proof. intros [k' [v [_ [A [r [g [_ [_ []]]]]]]]]. Qed.

Lemma fhits_nil k f i : ~ fhits [] k f i.
Proof. intros [k' [v [_ [A [r [g [_ [_ []]]]]]]]]. Qed.

End Trees.

(** * The search *)

Section Search.
Context {G : grammar} {R : Type}.
Variable leaf : N -> R.
Variable act : nt G -> rl G -> nat -> nat -> list R -> R.
Variable act_rep : list R -> R.
Notation find := (find_results leaf act act_rep).
Notation mach := (machine act act_rep).
Notation meaning := (meaning leaf act act_rep).
Notation meanings := (meanings leaf act act_rep).
Notation elements := (elements leaf act act_rep).
Notation result := (@result G R).
Notation frame := (@frame G R).

Lemma yield_done (ys : list result) x zs : yield ys x = Done zs -> exists l, x = Done l /\ zs = ys ++ l.
Proof. unfold yield. intro H. obinds H. injection H as <-. eauto. Qed.

Lemma yield_app (a b : list result) x : yield a (yield b x) = yield (a ++ b) x.
Proof. unfold yield. destruct x; simpl; auto. now rewrite app_assoc. Qed.

Lemma yield_nil (x : out (list result)) : yield [] x = x.
Proof. destruct x; reflexivity. Qed.

(** ** More fuel does not change an answer *)

Lemma machine_mono (fn fn' : sym (nt G) -> nat -> list (item G) -> out (list result)) it e :
  (forall x i Q l, fn x i Q = Done l -> fn' x i Q = Done l) ->
  forall f f' frames l, f <= f' -> mach fn it e f frames = Done l -> mach fn' it e f' frames = Done l.
Proof.
  intro E. induction f as [|f IH]; intros f' frames l L H; [discriminate|].
  destruct f' as [|f']; [lia|]. cbn [machine] in *.
  assert (IH' : forall fr l, mach fn it e f fr = Done l -> mach fn' it e f' fr = Done l).
  { intros. eapply IH; eauto. lia. }
  destruct frames as [|[[[i Q] rs] node] frames']; [assumption|].
  destruct (match n_nodes it with Some n => List.length frames' =? n | None => false end).
  - destruct (negb (i =? it_start it)); [now apply IH'|].
    apply yield_done in H. destruct H as [l0 [H ->]].
    destruct frames'; [injection H as <-; reflexivity|]. now rewrite (IH' _ _ H).
  - obinds H.
    assert (H1' : match rs with
         | Some l => Done l
         | None => match inner_symbol it (List.length frames') with
                   | Some x => fn' x i Q | None => Crash end
         end = Done a).
    { destruct rs; auto. destruct (inner_symbol _ _); auto. }
    rewrite H1'. cbn [obind]. destruct a as [|[[ni oi] v] l'].
    + destruct frames'; [assumption|]. now apply IH'.
    + apply yield_done in H. destruct H as [l0 [H ->]].
      destruct (it_start it <=? ni); rewrite (IH' _ _ H); reflexivity.
Qed.

Lemma find_mono f : forall f' data chart x i Q l, f <= f' ->
  find f data chart x i Q = Done l -> find f' data chart x i Q = Done l.
Proof.
  induction f as [|f IH]; intros f' data chart x i Q l L H; [discriminate|].
  destruct f' as [|f']; [lia|]. cbn [find_results] in *. destruct x as [bits|A]; [assumption|].
  eapply concat_map_mono; [|exact H]. intros it ys Hm. cbn beta in *.
  apply (@machine_mono (find f data chart) (find f' data chart) it i) with (f := f); [|lia|exact Hm].
  intros. apply IH; [lia|assumption].
Qed.

(** ** The fixed setting *)

Variables (data : str) (T : nt G) (chart : list (list (item G))).
Hypothesis exact : forall i it, In it (nth i chart []) <-> valid data T i it.
Hypothesis reps : @rep_ok G.

Definition unseen (i : nat) (Q : list (item G)) : list (item G) :=
  filter (fun it => negb (mem_item it Q)) (nth i chart []).

Definition less (p q : nat * list (item G)) : Prop :=
  fst p < fst q \/ (fst p = fst q /\ List.length (unseen (fst p) (snd p)) < List.length (unseen (fst q) (snd q))).

Lemma less_wf : well_founded less.
Proof.
  intros [i Q]. revert Q. induction i as [i IHi] using lt_wf_ind. intro Q.
  remember (List.length (unseen i Q)) as n eqn:En. revert Q En.
  induction n as [n IHn] using lt_wf_ind. intros Q En. constructor. intros [j P] [L|[E L]]; cbn [fst snd] in *.
  - now apply IHi.
  - subst j. eapply IHn; [|reflexivity]. lia.
Qed.

Lemma mem_app (it : item G) Q P : mem_item it (Q ++ P) = mem_item it Q || mem_item it P.
Proof.
  apply eq_true_iff_eq. rewrite orb_true_iff, !mem_item_In. apply in_app_iff.
Qed.

Lemma less_seen i Q it : In it (nth i chart []) -> mem_item it Q = false -> less (i, Q ++ [it]) (i, Q).
Proof.
  intros I N. right. cbn [fst snd]. split; auto. unfold unseen.
  apply filter_less with (x := it); auto.
  - intros y Hy. rewrite mem_app in Hy. apply negb_true_iff in Hy. apply orb_false_iff in Hy.
    apply negb_true_iff. tauto.
  - now rewrite N.
  - rewrite mem_app, N. apply negb_false_iff. cbn [orb]. apply mem_item_In. now left.
Qed.

Lemma less_trans p q r : less p q -> less q r -> less p r.
Proof. intros [A|[A B]] [C|[C D]]; unfold less; lia. Qed.

(** What is asked of the results [L] for symbol [x] ending at [i] with
    parents [Q]. *)
Definition sound_res x i Q (e : result) : Prop :=
  exists t, tree_at data x t (fst (fst e)) i /\ snd e = meaning (fst (fst e)) t
    /\ match x, snd (fst e) with
       | Tm _, None => fst (fst e) < i
       | Nt A, Some it => In it (completed A Q (nth i chart [])) /\ it_start it = fst (fst e)
       | _, _ => False
       end.

Definition expected_at x k : Prop :=
  match x with Tm _ => True | Nt A => predicted data T k A end.

Definition complete_res x i Q (L : list result) : Prop :=
  forall (t : tree G) k, tree_at data x t k i -> expected_at x k -> (exists oi v, In (k, oi, v) L) \/ hits Q k t i.

Definition search_ok x i Q : Prop :=
  exists L g0, (forall g, g0 <= g -> find g data chart x i Q = Done L)
    /\ Forall (sound_res x i Q) L /\ complete_res x i Q L.

Definition cont (fn : sym (nt G) -> nat -> list (item G) -> out (list result)) it e f (frames : list frame) :=
  match frames with [] => Done [] | _ => mach fn it e f frames end.

(** Running the machine from a top frame yields [ys] and then goes on with the
    frames below. *)
Definition runs it e (top : frame) (frames : list frame) (ys : list result) : Prop :=
  exists n g0, forall f g, g0 <= g ->
    mach (find g data chart) it e (S n + f) (top :: frames)
    = yield ys (cont (find g data chart) it e f frames).

(** ** A rule that is not unrolled *)

Lemma meanings_snoc f : forall k t,
  meanings k (fsnoc f t) = meanings k f ++ [meaning (k + List.length (forest_yield f)) t].
Proof.
  induction f as [|u f IH]; intros k t.
  - cbn [fsnoc]. autorewrite with trees. cbn [List.length]. now rewrite Nat.add_0_r.
  - cbn [fsnoc]. autorewrite with trees. rewrite IH, app_length, Nat.add_assoc. reflexivity.
Qed.

Lemma sound_start x i Q r : sound_res x i Q r -> fst (fst r) <= i.
Proof. intros [t [[_ [-> _]] _]]. lia. Qed.

Lemma app_nonempty_l {X} (a b : list X) : a <> [] -> a ++ b <> [].
Proof. destruct a; simpl; congruence. Qed.

Lemma app_nonempty_r {X} (a b : list X) : b <> [] -> a ++ b <> [].
Proof. destruct a; simpl; congruence. Qed.

Section General.
Variables (it : item G) (e : nat) (Q0 : list (item G)).
Hypothesis NR : rep_rule (it_nt it) (it_rl it) = false.
Hypothesis IR : In (it_rl it) (g_rules (it_nt it)).
Hypothesis PR : predicted data T (it_start it) (it_nt it).
Hypothesis Le : e <= List.length data.
Definition below (i : nat) (Q : list (item G)) : Prop := i < e \/ (i = e /\ Q = Q0).
Hypothesis SO : forall x i Q, below i Q -> search_ok x i Q.
Let rhs := g_rhs (it_rl it).
Let st := it_start it.

Lemma n_nodes_gen : n_nodes it = Some (List.length rhs).
Proof. unfold n_nodes. now rewrite NR. Qed.

(** The results a partial run must give: [rs] are the symbols still to be
    handled, from right to left. *)
Definition gen_sound (rs : list (sym (nt G))) i (frames : list frame) (y : result) : Prop :=
  exists f, forest_at data (rev rs) f st i
    /\ y = (st, Some it, act (it_nt it) (it_rl it) st e (meanings st f ++ frame_nodes frames)).

Definition gen_complete (rs : list (sym (nt G))) i Q (ys : list result) : Prop :=
  forall f, forest_at data (rev rs) f st i -> ys <> [] \/ fhits Q st f i.

Lemma gen_runs : forall rs done i Q frames,
  rhs = rev rs ++ done -> List.length frames = List.length done ->
  below i Q -> (rhs = [] -> i = st) ->
  exists ys, runs it e (i, Q, None, None) frames ys
    /\ Forall (gen_sound rs i frames) ys /\ gen_complete rs i Q ys.
Proof.
  induction rs as [|x rs IH]; intros done i Q frames ER EL BL E0.
  - (* a complete parse *)
    assert (EN : n_nodes it = Some (List.length frames)).
    { rewrite n_nodes_gen, ER, EL. reflexivity. }
    destruct (Nat.eq_dec i st) as [->|NE].
    + exists [(st, Some it, act (it_nt it) (it_rl it) st e (frame_nodes frames))].
      split; [|split].
      * exists 0, 0. intros f g _. cbn [Nat.add machine]. rewrite EN, Nat.eqb_refl.
        unfold st. rewrite Nat.eqb_refl. reflexivity.
      * constructor; [|constructor]. exists Fnil. split; [|reflexivity].
        apply forest_at_nil. destruct BL as [?|[? _]]; lia.
      * intros f _. left. discriminate.
    + exists []. split; [|split].
      * exists 0, 0. intros f g _. cbn [Nat.add machine]. rewrite EN, Nat.eqb_refl.
        apply Nat.eqb_neq in NE. unfold st in NE. rewrite NE. cbn [negb]. rewrite yield_nil.
        destruct frames; [|reflexivity]. exfalso. apply Nat.eqb_neq in NE. apply NE, E0.
        destruct done; [|discriminate]. now rewrite ER.
      * constructor.
      * intros f [F1 [F2 _]]. inversion F1; subst f. simpl in F2. exfalso. apply NE. lia.
  - (* a symbol to handle *)
    assert (EN : n_nodes it = Some (List.length rhs)) by apply n_nodes_gen.
    assert (EQ : (List.length frames =? List.length rhs) = false).
    { apply Nat.eqb_neq. rewrite ER, app_length, rev_length. simpl. lia. }
    assert (ES : inner_symbol it (List.length frames) = Some x).
    { unfold inner_symbol. rewrite EN. fold rhs. rewrite ER. simpl rev.
      rewrite rev_app_distr, nth_error_app2; rewrite rev_length; [|lia].
      rewrite EL, Nat.sub_diag, rev_app_distr. reflexivity. }
    assert (NE : rhs <> []).
    { rewrite ER. simpl. intro Q1. apply app_eq_nil in Q1. destruct Q1 as [Q1 _].
      apply app_eq_nil in Q1. destruct Q1. discriminate. }
    destruct (SO x BL) as [L [g0 [FL [SL CL]]]].
    assert (Main : forall l, incl l L -> forall node, exists ys,
      runs it e (i, Q, Some l, node) frames ys
      /\ Forall (gen_sound (x :: rs) i frames) ys
      /\ (forall f j, (exists oi v, In (j, oi, v) l) -> forest_at data (rev rs) f st j ->
            ys <> [] \/ (j = i /\ fhits Q st f i))).
    { induction l as [|[[ni oi] v] l' IHl]; intros IL node.
      - exists []. split; [|split; [constructor|]].
        + exists 0, 0. intros f g _. cbn [Nat.add machine]. rewrite EN, EQ. cbn [obind].
          rewrite yield_nil. reflexivity.
        + intros f j [oi [v []]].
      - pose proof (IL _ (or_introl eq_refl)) as I1.
        rewrite Forall_forall in SL. pose proof (SL _ I1) as S1. rewrite <- Forall_forall in SL.
        pose proof (sound_start S1) as Ln. cbn [fst snd] in Ln.
        destruct (Nat.le_gt_cases st ni) as [Lst|Lst].
        + set (np := if ni <? i then [] else Q).
          destruct (IH (x :: done) ni np ((i, Q, Some l', Some v) :: frames)) as [ys1 [R1 [Z1 C1]]].
          * rewrite ER. simpl. now rewrite <- app_assoc.
          * simpl. lia.
          * unfold np. destruct BL as [BL|[-> ->]]; [left; lia|].
            destruct (ni <? e) eqn:Q1; [left; lia|right; split; auto; lia].
          * intro Z. congruence.
          * destruct (IHl (fun a H => IL a (or_intror H)) (Some v)) as [ys2 [R2 [Z2 C2]]].
            exists (ys1 ++ ys2). split; [|split].
            -- destruct R1 as [n1 [g1 R1]]. destruct R2 as [n2 [g2 R2]].
               exists (S n1 + S n2), (Nat.max g1 g2). intros f g Lg.
               change (S (S n1 + S n2) + f) with (S (S n1 + S n2 + f)).
               cbn [machine]. rewrite EN, EQ. cbn [obind].
               assert (Q1 : (it_start it <=? ni) = true) by (apply Nat.leb_le; assumption).
               rewrite Q1, yield_nil.
               replace (if ni <? i then [] else match oi with Some _ => Q | None => Q end) with np
                 by (unfold np; destruct oi; reflexivity).
               rewrite <- Nat.add_assoc. rewrite R1 by lia. cbn [cont]. rewrite R2 by lia.
               now rewrite yield_app.
            -- apply Forall_app. split; [|exact Z2].
               eapply Forall_impl; [|exact Z1]. intros y [f [F1 ->]].
               destruct S1 as [t [T1 [T2 _]]]. cbn [fst snd] in T1, T2.
               exists (fsnoc f t). split.
               ++ simpl rev. eapply forest_at_snoc; eauto.
               ++ f_equal. f_equal. rewrite meanings_snoc, <- app_assoc. f_equal.
                  cbn [frame_nodes flat_map snd app]. f_equal.
                  destruct F1 as [_ [F1 _]]. rewrite <- F1. now rewrite T2.
            -- intros f j [oi' [v' [I2|I2]]] F.
               ++ injection I2 as -> -> ->. destruct (C1 f F) as [Y|Y].
                  ** left. now apply app_nonempty_l.
                  ** unfold np in Y. destruct (j <? i) eqn:Q1.
                     --- now apply fhits_nil in Y.
                     --- right. assert (j = i) by lia. subst j. auto.
               ++ destruct (C2 f j) as [Y|Y]; eauto. left. now apply app_nonempty_r.
        + destruct (IHl (fun a H => IL a (or_intror H)) node) as [ys2 [R2 [Z2 C2]]].
          exists ys2. split; [|split; [exact Z2|]].
          * destruct R2 as [n2 [g2 R2]]. exists (S n2), g2. intros f g Lg.
            change (S (S n2) + f) with (S (S n2 + f)). cbn [machine]. rewrite EN, EQ. cbn [obind].
            assert (Q1 : (it_start it <=? ni) = false) by (apply Nat.leb_gt; assumption).
            rewrite Q1, yield_nil. now apply R2.
          * intros f j [oi' [v' [I2|I2]]] F.
            -- injection I2 as -> -> ->. destruct F as [_ [F _]]. lia.
            -- apply C2; eauto. }
    destruct (Main L (incl_refl _) None) as [ys [R1 [Z1 C1]]].
    exists ys. split; [|split; [exact Z1|]].
    + destruct R1 as [n1 [g1 R1]]. exists n1, (Nat.max g0 g1). intros f g Lg.
      specialize (R1 f g ltac:(lia)). cbn [Nat.add machine] in *. rewrite EN, EQ in *.
      rewrite ES, (FL g) by lia. exact R1.
    + intros f F. simpl rev in F. apply forest_at_snoc_inv in F.
      destruct F as [f' [t [j [-> [F1 [F2 F3]]]]]].
      assert (EX : expected_at x j).
      { destruct x as [bits|B]; [exact I|]. apply forest_at_dspan in F1.
        assert (EP : firstn (List.length (rev rs)) rhs = rev rs /\ nth_error rhs (List.length (rev rs)) = Some (Nt B)).
        { rewrite ER. simpl rev. rewrite <- app_assoc. split.
          - rewrite firstn_app, Nat.sub_diag, firstn_all. apply app_nil_r.
          - rewrite nth_error_app2, Nat.sub_diag by lia. reflexivity. }
        destruct EP as [EP1 EP2]. eapply predicted_step; eauto. fold rhs. rewrite EP1. exact F1. }
      destruct (CL t j F2 EX) as [[oi [v J]]|H].
      * destruct (C1 f' j) as [Y|[-> [k' [u [S1 S2]]]]]; eauto.
        right. exists k', u. split; auto. now apply subf_snoc_l.
      * right. destruct H as [k' [u [S1 S2]]]. exists k', u. split; auto.
        apply subf_snoc_r. rewrite <- F3. exact S1.
Qed.

End General.

(** ** The unrolled rule of a repetition *)

Lemma completed_spec A Q items (it : item G) :
  In it (completed A Q items) <->
  In it items /\ next_sym it = None /\ it_nt it = A /\ mem_item it Q = false.
Proof.
  unfold completed. rewrite filter_In, !andb_true_iff, negb_true_iff.
  destruct (next_sym it); destruct (nt_dec (it_nt it) A); intuition (try discriminate; auto).
Qed.

Section Repeated.
Variables (it : item G) (e : nat) (P : list (item G)).
Variables (x : sym (nt G)).
Hypothesis RR : rep_rule (it_nt it) (it_rl it) = true.
Hypothesis ER : g_rhs (it_rl it) = [Nt (it_nt it); x].
Hypothesis IR : In (it_rl it) (g_rules (it_nt it)).
Hypothesis PR : predicted data T (it_start it) (it_nt it).
Hypothesis SO : forall x i Q, less (i, Q) (e, P) -> search_ok x i Q.
Let st := it_start it.

Definition rep_sound i (frames : list frame) (y : result) : Prop :=
  exists m f, forest_at data (repeat x (S m)) f st i
    /\ y = (st, Some it, act_rep (meanings st f ++ frame_nodes frames)).

Definition rep_complete i Q (ys : list result) : Prop :=
  forall f, forest_at data (g_rhs (it_rl it)) f st i -> ys <> [] \/ fhits Q st f i.

Lemma repeat_snoc {X} (a : X) m : repeat a (S m) = repeat a m ++ [a].
Proof. induction m as [|m IH]; [reflexivity|]. cbn [repeat app]. f_equal. exact IH. Qed.

Lemma chain_forest : forall m f k i, forest_at data (repeat x (S m)) f k i ->
  exists g, forest_at data (g_rhs (it_rl it)) g k i /\ elements k g = meanings k f.
Proof.
  assert (NR0 : forall r0, g_rhs r0 = [] -> rep_rule (it_nt it) r0 = false).
  { intros r0 E. unfold rep_rule. rewrite E. apply andb_false_r. }
  destruct (reps IR RR) as [_ [[r0 [I0 E0]] _]].
  assert (Step : forall t0 t k j i, tree_at data (Nt (it_nt it)) t0 k j -> tree_at data x t j i ->
    forest_at data (g_rhs (it_rl it)) (Fcons t0 (Fcons t Fnil)) k i).
  { intros t0 t k j i T0 T1. rewrite ER.
    change [Nt (it_nt it); x] with (([] ++ [Nt (it_nt it)]) ++ [x]).
    change (Fcons t0 (Fcons t Fnil)) with (fsnoc (fsnoc Fnil t0) t).
    eapply forest_at_snoc; [|exact T1]. eapply forest_at_snoc; [|exact T0].
    apply forest_at_nil. destruct T0 as [_ [? [? _]]]. lia. }
  induction m as [|m IH]; intros f k i F; rewrite repeat_snoc in F;
    apply forest_at_snoc_inv in F; destruct F as [f' [t [j [-> [F1 [F2 F3]]]]]].
  - destruct F1 as [F1 [_ [F5 F6]]]. inversion F1; subst f'.
    autorewrite with trees in F3. simpl in F3. rewrite Nat.add_0_r in F3. subst j.
    exists (Fcons (Node (it_nt it) r0 Fnil) (Fcons t Fnil)). split.
    + eapply Step; [|exact F2]. apply tree_at_node; auto. rewrite E0. now apply forest_at_nil.
    + cbn [fsnoc]. autorewrite with trees. rewrite (NR0 _ E0). cbn [app List.length].
      now rewrite Nat.add_0_r.
  - destruct (IH _ _ _ F1) as [g [G1 G2]].
    exists (Fcons (Node (it_nt it) (it_rl it) g) (Fcons t Fnil)). split.
    + eapply Step; [|exact F2]. now apply tree_at_node.
    + autorewrite with trees. rewrite RR, G2. rewrite meanings_snoc.
      destruct G1 as [_ [G1 _]]. rewrite <- G1, <- F3. reflexivity.
Qed.

Lemma n_nodes_rep : n_nodes it = None.
Proof. unfold n_nodes. now rewrite RR. Qed.

Lemma rep_runs : forall p, less p (e, P) -> fst p <= List.length data -> forall frames node, exists ys,
  runs it e (fst p, snd p, None, node) frames ys
  /\ Forall (rep_sound (fst p) frames) ys /\ rep_complete (fst p) (snd p) ys.
Proof.
  intro p. induction p as [[i Q] IH] using (well_founded_induction less_wf). cbn [fst snd].
  intros LP Ld frames node.
  pose proof n_nodes_rep as EN.
  assert (ES : forall n, inner_symbol it n = Some x).
  { intro n. unfold inner_symbol. rewrite EN, ER. reflexivity. }
  destruct (SO x LP) as [L [g0 [FL [SL CL]]]].
  assert (Main : forall l, incl l L -> forall frames node, exists ys,
    runs it e (i, Q, Some l, node) frames ys
    /\ Forall (rep_sound i frames) ys
    /\ (forall j, (exists oi v, In (j, oi, v) l) ->
          (j = st \/ (st < j /\ j < i /\ exists f0, forest_at data (g_rhs (it_rl it)) f0 st j)) ->
          ys <> [])).
  { clear frames node. induction l as [|[[ni oi] v] l' IHl]; intros IL frames node.
    - exists []. split; [|split; [constructor|]].
      + exists 0, 0. intros f g _. cbn [Nat.add machine]. rewrite EN. cbn [obind].
        rewrite yield_nil. reflexivity.
      + intros j [oi [v []]].
    - pose proof (IL _ (or_introl eq_refl)) as I1.
      rewrite Forall_forall in SL. pose proof (SL _ I1) as S1. rewrite <- Forall_forall in SL.
      pose proof (sound_start S1) as Ln. cbn [fst snd] in Ln.
      destruct S1 as [t [T1 [T2 T3]]]. cbn [fst snd] in T1, T2, T3.
      set (np := if ni <? i then [] else match oi with Some y => Q ++ [y] | None => Q end).
      set (ys0 := if ni =? it_start it then [(ni, Some it, act_rep (v :: frame_nodes frames))] else []).
      assert (Z0 : Forall (rep_sound i frames) ys0).
      { unfold ys0. destruct (ni =? it_start it) eqn:Q1; [|constructor].
        apply Nat.eqb_eq in Q1. constructor; [|constructor].
        exists 0, (Fcons t Fnil). split.
        - change (repeat x 1) with ([] ++ [x]). change (Fcons t Fnil) with (fsnoc Fnil t).
          eapply forest_at_snoc; [|rewrite Q1 in T1; exact T1]. apply forest_at_nil.
          unfold st. destruct T1 as [_ [? _]]. lia.
        - autorewrite with trees. cbn [app]. unfold st. rewrite <- Q1, <- T2. reflexivity. }
      destruct (Nat.le_gt_cases st ni) as [Lst|Lst].
      + assert (LN : less (ni, np) (i, Q)).
        { unfold np. destruct (ni <? i) eqn:Q1; [left; cbn [fst]; lia|].
          assert (ni = i) by lia. subst ni. destruct x as [bits|A]; destruct oi as [y|];
            try contradiction; [lia|].
          destruct T3 as [T3 _]. apply completed_spec in T3. apply less_seen; tauto. }
        destruct (IH (ni, np) LN (less_trans LN LP) ltac:(cbn [fst]; lia)
                     ((i, Q, Some l', Some v) :: frames) None) as [ys1 [R1 [Z1 C1]]].
        cbn [fst snd] in *.
        destruct (IHl (fun a H => IL a (or_intror H)) frames (Some v)) as [ys2 [R2 [Z2 C2]]].
        exists (ys0 ++ ys1 ++ ys2). split; [|split].
        * destruct R1 as [n1 [g1 R1]]. destruct R2 as [n2 [g2 R2]].
          exists (S n1 + S n2), (Nat.max g1 g2). intros f g Lg.
          change (S (S n1 + S n2) + f) with (S (S n1 + S n2 + f)).
          cbn [machine]. rewrite EN. cbn [obind].
          assert (Q1 : (it_start it <=? ni) = true) by (apply Nat.leb_le; assumption).
          rewrite Q1. fold np ys0.
          rewrite <- Nat.add_assoc. rewrite R1 by lia. cbn [cont]. rewrite R2 by lia.
          rewrite !yield_app. now rewrite !app_assoc.
        * apply Forall_app. split; [exact Z0|]. apply Forall_app. split; [|exact Z2].
          eapply Forall_impl; [|exact Z1]. intros y [m [f [F1 ->]]].
          exists (S m), (fsnoc f t). split.
          -- rewrite repeat_snoc. eapply forest_at_snoc; eauto.
          -- f_equal. f_equal. rewrite meanings_snoc, <- app_assoc.
             cbn [frame_nodes flat_map snd app]. f_equal.
             destruct F1 as [_ [F1 _]]. rewrite <- F1. now rewrite T2.
        * intros j [oi' [v' [I2|I2]]] F.
          -- injection I2 as -> -> ->. destruct F as [->|[F1 [F2 [f0 F3]]]].
             ++ apply app_nonempty_l. unfold ys0, st. now rewrite Nat.eqb_refl.
             ++ apply app_nonempty_r, app_nonempty_l. destruct (C1 f0 F3) as [Y|Y]; auto.
                exfalso. unfold np in Y. destruct (j <? i) eqn:Q1; [|lia]. now apply fhits_nil in Y.
          -- apply app_nonempty_r, app_nonempty_r. eapply C2; eauto.
      + destruct (IHl (fun a H => IL a (or_intror H)) frames node) as [ys2 [R2 [Z2 C2]]].
        exists ys2. split; [|split; [exact Z2|]].
        * destruct R2 as [n2 [g2 R2]]. exists (S n2), g2. intros f g Lg.
          change (S (S n2) + f) with (S (S n2 + f)). cbn [machine]. rewrite EN. cbn [obind].
          assert (Q1 : (it_start it <=? ni) = false) by (apply Nat.leb_gt; assumption).
          assert (Q2 : (ni =? it_start it) = false) by (apply Nat.eqb_neq; unfold st in Lst; lia).
          rewrite Q1, Q2, yield_nil. now apply R2.
        * intros j [oi' [v' [I2|I2]]] F.
          -- injection I2 as -> -> ->. destruct F as [->|[? _]]; lia.
          -- eapply C2; eauto. }
  destruct (Main L (incl_refl _) frames node) as [ys [R1 [Z1 C1]]].
  exists ys. split; [|split; [exact Z1|]].
  - destruct R1 as [n1 [g1 R1]]. exists n1, (Nat.max g0 g1). intros f g Lg.
    specialize (R1 f g ltac:(lia)). cbn [Nat.add machine] in *. rewrite EN in *.
    rewrite ES, (FL g) by lia. exact R1.
  - (* by induction on the size of the chain *)
    intro f. remember (fsize f) as n eqn:En. revert f En.
    induction n as [n IHn] using lt_wf_ind. intros f En F.
    pose proof F as F'. rewrite ER in F'.
    change [Nt (it_nt it); x] with (([] ++ [Nt (it_nt it)]) ++ [x]) in F'.
    apply forest_at_snoc_inv in F'. destruct F' as [f1 [t [j [-> [F1 [F2 F3]]]]]].
    apply forest_at_snoc_inv in F1. destruct F1 as [f2 [t0 [j0 [-> [F4 [F5 F6]]]]]].
    pose proof F4 as F4'. destruct F4' as [F4' _]. inversion F4'; subst f2.
    autorewrite with trees in F6. simpl in F6. rewrite Nat.add_0_r in F6. subst j0.
    cbn [fsnoc] in *.
    assert (EX : expected_at x j).
    { destruct x as [bits|B]; [exact I|].
      apply (@predicted_step G data T (it_start it) (it_nt it) (it_rl it) 1 B j); auto.
      - now rewrite ER.
      - rewrite ER. cbn [firstn]. apply (@forest_at_dspan G data [Nt (it_nt it)] (Fcons t0 Fnil)).
        change [Nt (it_nt it)] with ([] ++ [Nt (it_nt it)]). change (Fcons t0 Fnil) with (fsnoc Fnil t0).
        eapply forest_at_snoc; eauto. }
    destruct (CL t j F2 EX) as [[oi [v J]]|H].
    + destruct (Nat.eq_dec j st) as [->|NE]; [left; eapply C1; eauto|].
      assert (Lj : st <= j <= i).
      { destruct F5 as [_ [? _]]. destruct F2 as [_ [? _]]. lia. }
      apply tree_at_node_inv in F5. destruct F5 as [r' [f0 [-> [Ir' F5]]]].
      destruct (reps IR RR) as [_ [_ U]]. destruct (U r' Ir') as [E0|Er]; [|subst r'].
      * exfalso. rewrite E0 in F5. destruct F5 as [F5 [F7 _]]. inversion F5; subst f0.
        simpl in F7. apply NE. lia.
      * destruct (Nat.eq_dec j i) as [->|Nj].
        -- destruct (IHn (fsize f0)) with (f := f0) as [Y|Y]; auto.
           { rewrite En. enough (fsize (Fcons (Node (it_nt it) (it_rl it) f0) (Fcons t Fnil))
                                = S (fsize f0) + (tsize t + 0)) as -> by lia. reflexivity. }
           right. destruct Y as [k' [u [S1 S2]]]. exists k', u. split; auto.
           apply subf_here. now apply sub_node.
        -- left. apply (C1 j); eauto. right. repeat split; try lia. eauto.
    + right. destruct H as [k' [u [S1 S2]]]. exists k', u. split; auto.
      apply subf_next, subf_here. autorewrite with trees in F3. rewrite app_length in F3. simpl in F3.
      rewrite Nat.add_0_r in F3. rewrite <- F3. exact S1.
Qed.

End Repeated.

(** ** The whole search *)

Lemma concat_map_runs {X} (F : nat -> X -> out (list result)) (Pr : X -> list result -> Prop) l :
  (forall a, In a l -> exists ys g0, (forall g, g0 <= g -> F g a = Done ys) /\ Pr a ys) ->
  exists zs g0, (forall g, g0 <= g -> concat_map_out (F g) l = Done zs)
    /\ (forall y, In y zs -> exists a ys, In a l /\ Pr a ys /\ In y ys)
    /\ (forall a, In a l -> exists ys, Pr a ys /\ incl ys zs).
Proof.
  induction l as [|a l IH]; intro H.
  - exists [], 0. split; [reflexivity|]. split; [intros y []|intros a []].
  - destruct (H a (or_introl eq_refl)) as [ys [g1 [H1 P1]]].
    destruct IH as [zs [g2 [H2 [H3 H4]]]]; [intros b Ib; apply H; now right|].
    exists (ys ++ zs), (Nat.max g1 g2). split; [|split].
    + intros g Lg. cbn [concat_map_out]. rewrite H1 by lia. cbn [obind]. rewrite H2 by lia. reflexivity.
    + intros y Iy. apply in_app_or in Iy. destruct Iy as [Iy|Iy].
      * exists a, ys. split; [now left|]. auto.
      * destruct (H3 y Iy) as [b [ys' [Q1 Q2]]]. exists b, ys'. split; [now right|]. auto.
    + intros b [->|Ib].
      * exists ys. split; auto. apply incl_appl, incl_refl.
      * destruct (H4 b Ib) as [ys' [Q1 Q2]]. exists ys'. split; auto. now apply incl_appr.
Qed.

Lemma node_size (A : nt G) r f : tsize (Node A r f) = S (fsize f).
Proof. reflexivity. Qed.

Theorem search_total : forall p, fst p <= List.length data -> forall x, search_ok x (fst p) (snd p).
Proof.
  intro p. induction p as [[e P] IH] using (well_founded_induction less_wf). cbn [fst snd].
  intros Le x. destruct x as [bits|A].
  - (* a terminal *)
    destruct e as [|e].
    + exists [], 1. split; [|split; [constructor|]].
      * intros [|g] Lg; [lia|]. reflexivity.
      * intros t k [T1 [T2 _]]. inversion T1; subst. rewrite yield_leaf in T2. simpl in T2. lia.
    + destruct (nth_error data e) as [c|] eqn:Ec; [|apply nth_error_None in Ec; lia].
      assert (SC : slice data e (S e) = [c]).
      { rewrite (slice_cons Ec) by lia. now rewrite slice_nil. }
      destruct (tmatch bits c) eqn:M.
      * exists [(e, None, leaf c)], 1. split; [|split].
        -- intros [|g] Lg; [lia|]. cbn [find_results]. now rewrite Ec, M.
        -- constructor; [|constructor]. exists (Leaf c). cbn [fst snd]. repeat split; auto; try lia.
           ++ now constructor.
           ++ rewrite yield_leaf. simpl. lia.
        -- intros t k [T1 [T2 [T3 T4]]]. inversion T1; subst. rewrite yield_leaf in T2. simpl in T2.
           left. assert (k = e) by lia. subst k. exists None, (leaf c). now left.
      * exists [], 1. split; [|split; [constructor|]].
        -- intros [|g] Lg; [lia|]. cbn [find_results]. now rewrite Ec, M.
        -- intros t k [T1 [T2 [T3 T4]]]. inversion T1; subst. rewrite yield_leaf in T2, T4. simpl in T2.
           assert (k = e) by lia. subst k. rewrite SC in T4. injection T4 as <-.
           unfold tmatch in M. congruence.
  - (* a nonterminal *)
    set (Pr := fun (it : item G) (ys : list result) =>
      Forall (fun y => fst (fst y) = it_start it /\ snd (fst y) = Some it
        /\ exists f, forest_at data (g_rhs (it_rl it)) f (it_start it) e
           /\ snd y = meaning (it_start it) (Node (it_nt it) (it_rl it) f)) ys
      /\ forall f, forest_at data (g_rhs (it_rl it)) f (it_start it) e ->
           ys <> [] \/ fhits (P ++ [it]) (it_start it) f e).
    destruct (@concat_map_runs (item G)
      (fun g it => mach (find g data chart) it e g [(e, P ++ [it], None, None)]) Pr
      (completed A P (nth e chart []))) as [zs [g0 [H1 [H2 H3]]]].
    { intros it I. apply completed_spec in I. destruct I as [I1 [I2 [I3 I4]]].
      pose proof (proj1 (exact e it) I1) as V.
      pose proof (less_seen I1 I4) as LS.
      assert (IR : In (it_rl it) (g_rules (it_nt it))) by apply V.
      assert (D : dspan data (g_rhs (it_rl it)) (it_start it) e).
      { destruct V as [_ [_ [V3 V4]]]. now rewrite (next_none_firstn I2 V3) in V4. }
      destruct (rep_rule (it_nt it) (it_rl it)) eqn:RR.
      - destruct (reps IR RR) as [[x ER] _].
        assert (SO : forall x i Q, less (i, Q) (e, P) -> search_ok x i Q).
        { intros x0 i Q LQ. apply (IH (i, Q) LQ). destruct LQ as [LQ|[LQ _]]; cbn [fst] in *; lia. }
        destruct (@rep_runs it e P x RR ER IR (proj1 V) SO (e, P ++ [it]) LS Le [] None) as [ys [[n [g1 Rn]] [Z C]]].
        cbn [fst snd] in *.
        exists ys, (Nat.max (S n) g1). split; [|split].
        + intros g Lg. replace g with (S n + (g - S n)) at 2 by lia. rewrite Rn by lia.
          cbn [cont]. unfold yield. cbn [obind]. now rewrite app_nil_r.
        + eapply Forall_impl; [|exact Z]. intros y [m [f [F ->]]]. cbn [fst snd].
          repeat split; auto. destruct (chain_forest RR ER IR SO F) as [g [G1 G2]].
          exists g. split; auto. autorewrite with trees. rewrite RR, G2.
          cbn [frame_nodes flat_map]. now rewrite app_nil_r.
        + exact C.
      - assert (SO : forall x i Q, below e (P ++ [it]) i Q -> search_ok x i Q).
        { intros x0 i Q [B|[-> ->]].
          - apply (IH (i, Q)); [now left|cbn [fst]; lia].
          - now apply (IH (e, P ++ [it])). }
        destruct (@gen_runs it e (P ++ [it]) RR IR (proj1 V) Le SO (rev (g_rhs (it_rl it))) [] e (P ++ [it]) [])
          as [ys [[n [g1 Rn]] [Z C]]].
        + now rewrite rev_involutive, app_nil_r.
        + reflexivity.
        + right. auto.
        + intro E. rewrite E in D. inversion D. reflexivity.
        + exists ys, (Nat.max (S n) g1). split; [|split].
          * intros g Lg. replace g with (S n + (g - S n)) at 2 by lia. rewrite Rn by lia.
            cbn [cont]. unfold yield. cbn [obind]. now rewrite app_nil_r.
          * eapply Forall_impl; [|exact Z]. intros y [f [F ->]]. cbn [fst snd].
            rewrite rev_involutive in F.
            repeat split; auto. exists f. split; auto. autorewrite with trees. rewrite RR.
            cbn [frame_nodes flat_map]. rewrite app_nil_r. destruct F as [_ [F _]]. now rewrite <- F.
          * intros f F. apply (C f). now rewrite rev_involutive. }
    exists zs, (S g0). split; [|split].
    + intros [|g] Lg; [lia|]. cbn [find_results]. apply H1. lia.
    + apply Forall_forall. intros y Iy. destruct (H2 y Iy) as [it [ys [J1 [[J2 _] J3]]]].
      rewrite Forall_forall in J2. destruct (J2 y J3) as [K1 [K2 [f [K3 K4]]]].
      pose proof J1 as J1'. apply completed_spec in J1'. destruct J1' as [I1 [I2 [I3 I4]]].
      pose proof (proj1 (exact e it) I1) as V.
      exists (Node (it_nt it) (it_rl it) f). rewrite K1, K2. split; [|split; auto].
      rewrite <- I3. apply tree_at_node; auto. apply V.
    + (* by induction on the size of the tree *)
      intro t. remember (tsize t) as n eqn:En. revert t En.
      induction n as [n IHn] using lt_wf_ind. intros t En k T1 EX. cbn [expected_at] in EX.
      pose proof (tree_at_node_inv T1) as [r [f [Et [Ir F]]]].
      set (it := Item A r (List.length (g_rhs r)) k).
      assert (V : valid data T e it).
      { repeat split; auto. cbn [it it_pos it_rl it_start]. rewrite firstn_all.
        eapply forest_at_dspan; eauto. }
      apply exact in V.
      destruct (mem_item it P) eqn:MP.
      * right. exists k, t. split; [constructor|]. exists A, r, f. repeat split; auto.
        -- destruct F as [_ [F _]]. lia.
        -- now apply mem_item_In.
      * destruct (H3 it) as [ys [[Y1 Y2] Y3]].
        { apply completed_spec. repeat split; auto. unfold next_sym. cbn [it it_pos it_rl].
          apply nth_error_None. lia. }
        destruct (Y2 f F) as [NE|[k' [v [S1 [B [rv [g [-> [S2 S3]]]]]]]]].
        -- left. destruct ys as [|[[k0 oi] v] ys]; [congruence|].
           inversion Y1 as [|? ? [K1 _] _]; subst. cbn [fst it it_start] in K1. subst k0.
           exists oi, v. apply Y3. now left.
        -- apply in_app_or in S3. destruct S3 as [S3|[S3|[]]].
           ++ right. exists k', (Node B rv g). split; [subst t; now apply sub_node|]. exists B, rv, g. auto.
           ++ unfold it in S3. injection S3 as <- <- _ <-.
              destruct (proj2 (sub_at data) _ _ _ _ S1 _ _ F) as [x' T2].
              pose proof T2 as T3. destruct T2 as [T2 _]. inversion T2; subst x'.
              rewrite yield_node, S2 in T3. subst A0.
              pose proof (proj2 sub_size _ _ _ _ S1) as SZ.
              assert (SZ' : tsize (Node A r g) < n) by (rewrite En, Et, (node_size A r f); lia).
              destruct (IHn _ SZ' (Node A r g) eq_refl k T3 EX) as [X|X].
              ** now left.
              ** right. destruct X as [k2 [v2 [X1 X2]]]. exists k2, v2. split; auto.
                 eapply (proj1 sub_trans); [|exact X1]. subst t. now apply sub_node.
Qed.

End Search.
