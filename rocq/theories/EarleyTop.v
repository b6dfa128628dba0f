(** The parser as a whole: termination, acceptance, and the error report. *)
From Coq Require Import ZifyBool ZifyNat ZifyN Wf_nat.
From Verif Require Import Base Earley EarleySpec EarleyChart EarleyItems EarleyTerm EarleySearch.
Open Scope nat_scope.
Unset Strict Implicit.

Section Error.
Context {G : grammar}.
Implicit Types (A B : nt G) (it : item G) (chart : list (list (item G))).

(** * Pivots *)

Lemma pivots_mono f : forall f' chart A k stack l, f <= f' ->
  find_pivots f chart A k stack = Done l -> find_pivots f' chart A k stack = Done l.
Proof.
  induction f as [|f IH]; intros f' chart A k stack l L H; [discriminate|].
  destruct f' as [|f']; [lia|]. cbn [find_pivots] in *. destruct (g_pivot A); [assumption|].
  eapply concat_map_mono; [|exact H]. intros it ys Hi. cbn beta in *.
  destruct (existsb _ _); [assumption|]. apply IH; [lia|assumption].
Qed.

Definition pair_dec : forall a b : nt G * nat, {a = b} + {a <> b}.
Proof. decide equality; [apply Nat.eq_dec|apply nt_dec]. Defined.

Lemma on_stack stack A k :
  existsb (fun p => (if nt_dec (fst p) A then true else false) && (snd p =? k)) stack = true
  <-> In (A, k) stack.
Proof.
  rewrite existsb_exists. split.
  - intros [[B j] [I H]]. cbn [fst snd] in H. apply andb_true_iff in H. destruct H as [H1 H2].
    destruct (nt_dec B A) as [->|]; [|discriminate]. apply Nat.eqb_eq in H2. now subst.
  - intro I. exists (A, k). split; auto. cbn [fst snd]. rewrite Nat.eqb_refl.
    destruct (nt_dec A A); [reflexivity|congruence].
Qed.

(** The pairs [(symbol, start)] occurring in a chart. *)
Definition chart_pairs chart : list (nt G * nat) :=
  map (fun it => (it_nt it, it_start it)) (List.concat chart).

Lemma chart_pairs_in chart k it : In it (nth k chart []) -> In (it_nt it, it_start it) (chart_pairs chart).
Proof.
  intro I. apply (in_map (fun it => (it_nt it, it_start it))). apply in_concat.
  exists (nth k chart []). split; auto. destruct (Nat.lt_ge_cases k (List.length chart)) as [L|L].
  - now apply nth_In.
  - rewrite nth_overflow in I by lia. destruct I.
Qed.

Definition fresh_pairs chart (stack : list (nt G * nat)) : nat :=
  List.length (filter (fun p => if in_dec pair_dec p stack then false else true) (chart_pairs chart)).

Lemma concat_map_total {X Y} (f : X -> out (list Y)) l :
  (forall x, In x l -> exists ys, f x = Done ys) -> exists zs, concat_map_out f l = Done zs.
Proof.
  induction l as [|x l IH]; intro H; [now exists []|].
  destruct (H x (or_introl eq_refl)) as [ys E]. destruct IH as [zs E']; [intros; apply H; now right|].
  exists (ys ++ zs). cbn [concat_map_out]. now rewrite E, E'.
Qed.

Lemma concat_map_in {X Y} (f : X -> out (list Y)) l zs y :
  concat_map_out f l = Done zs -> (In y zs <-> exists x ys, In x l /\ f x = Done ys /\ In y ys).
Proof.
  revert zs. induction l as [|x l IH]; intros zs H; cbn [concat_map_out] in H.
  - injection H as <-. split; [intros []|intros [x [ys [[] _]]]].
  - obinds H. obinds H. injection H as <-. rewrite in_app_iff, (IH _ H0). split.
    + intros [I|[x' [ys [I1 [I2 I3]]]]].
      * exists x, a. repeat split; auto. now left.
      * exists x', ys. repeat split; auto. now right.
    + intros [x' [ys [[->|I1] [I2 I3]]]].
      * left. rewrite H1 in I2. injection I2 as <-. assumption.
      * right. eauto.
Qed.

Lemma pivots_end chart : forall n A k stack f,
  fresh_pairs chart stack <= n -> n < f ->
  In (A, k) (chart_pairs chart) -> ~ In (A, k) stack ->
  exists l, find_pivots f chart A k stack = Done l.
Proof.
  induction n as [|n IH]; intros A k stack f Ln Lf I NI; (destruct f as [|f]; [lia|]).
  - exfalso. unfold fresh_pairs in Ln.
    assert (In (A, k) (filter (fun p => if in_dec pair_dec p stack then false else true) (chart_pairs chart))).
    { apply filter_In. split; auto. destruct (in_dec pair_dec (A, k) stack); tauto. }
    destruct (filter _ _); [contradiction|simpl in Ln; lia].
  - cbn [find_pivots]. destruct (g_pivot A); [now eexists|].
    apply concat_map_total. intros it Iit. apply filter_In in Iit. destruct Iit as [Iit _].
    destruct (existsb _ _) eqn:E; [now eexists|].
    assert (NS : ~ In (it_nt it, it_start it) (stack ++ [(A, k)])).
    { intro J. apply on_stack in J. congruence. }
    apply IH; auto; [|lia|now apply chart_pairs_in in Iit].
    enough (fresh_pairs chart (stack ++ [(A, k)]) < fresh_pairs chart stack) by lia.
    unfold fresh_pairs. apply filter_less with (x := (A, k)); auto.
    + intros y. destruct (in_dec pair_dec y (stack ++ [(A, k)])) as [|Ny]; [discriminate|].
      destruct (in_dec pair_dec y stack); auto. intros _. exfalso. apply Ny. apply in_or_app. now left.
    + destruct (in_dec pair_dec (A, k) stack); tauto.
    + destruct (in_dec pair_dec (A, k) (stack ++ [(A, k)])) as [|Ny]; auto.
      exfalso. apply Ny. apply in_or_app. right. now left.
Qed.

(** * The last non-empty inventory *)

Lemma last_nonempty_spec chart : forall i0 i items,
  last_nonempty i0 chart = Some (i, items) ->
  i0 <= i /\ nth (i - i0) chart [] = items /\ items <> []
  /\ forall j, i < j -> nth (j - i0) chart [] = [].
Proof.
  induction chart as [|l chart IH]; intros i0 i items H; cbn [last_nonempty] in H; [discriminate|].
  destruct (last_nonempty (S i0) chart) as [[i' items']|] eqn:E.
  - injection H as -> ->. apply IH in E. destruct E as [L [E1 [E2 E3]]].
    split; [lia|]. replace (i - i0) with (S (i - S i0)) by lia. repeat split; auto.
    intros j Lj. replace (j - i0) with (S (j - S i0)) by lia. now apply E3.
  - destruct l as [|x l]; [discriminate|]. injection H as <- <-. rewrite Nat.sub_diag.
    repeat split; auto; try discriminate. intros j Lj. replace (j - i0) with (S (j - S i0)) by lia.
    cbn [nth]. clear - E. revert i0 j E. 
    assert (X : forall i0, last_nonempty i0 chart = None -> forall n, nth n chart [] = []).
    { induction chart as [|l chart IH]; intros i0 E n; [destruct n; reflexivity|].
      cbn [last_nonempty] in E. destruct (last_nonempty (S i0) chart) as [[a b]|] eqn:E'; [discriminate|].
      destruct l; [|discriminate]. destruct n; [reflexivity|]. cbn [nth]. eapply IH; eauto. }
    intros. eapply X; eauto.
Qed.

Lemma last_nonempty_some chart k : nth k chart [] <> [] -> forall i0, exists p, last_nonempty i0 chart = Some p.
Proof.
  revert k. induction chart as [|l chart IH]; intros k H i0; [destruct k; now elim H|].
  cbn [last_nonempty]. destruct (last_nonempty (S i0) chart) as [p|] eqn:E; [now eexists|].
  destruct k as [|k]; cbn [nth] in H.
  - destruct l; [now elim H|]. now eexists.
  - destruct (IH k H (S i0)) as [p E']. congruence.
Qed.

Section Fixed.
Variables (data : str) (T : nt G) (chart : list (list (item G))).
Hypothesis exact : forall i it, In it (nth i chart []) <-> valid data T i it.

(** * From items to continuations and back *)

Lemma predicted_context : productive T -> forall k A, predicted data T k A ->
  forall u, generates A u -> exists v, generates T (firstn k data ++ u ++ v).
Proof.
  intros PT. induction 1 as [|k A r pos B i P IH Ir N D]; intros u Gu.
  - exists []. rewrite app_nil_r. exact Gu.
  - pose proof (predicted_reach P) as Rc. destruct (PT A r Rc Ir) as [w W].
    assert (Es : g_rhs r = firstn pos (g_rhs r) ++ Nt B :: skipn (S pos) (g_rhs r)).
    { rewrite <- (firstn_skipn pos (g_rhs r)) at 1. f_equal. clear - N.
      revert pos N. induction (g_rhs r) as [|x l IH]; intros [|pos] N; simpl in *; try discriminate.
      - congruence.
      - now apply IH. }
    rewrite Es in W. apply derives_split in W. destruct W as [w1 [w2 [_ [_ W2]]]].
    apply derives_nt_inv in W2. destruct W2 as [w3 [w4 [_ [_ W4]]]].
    pose proof (dspan_le D) as L. apply dspan_derives in D.
    destruct (IH (slice data k i ++ u ++ w4)) as [v Gv].
    { exists r. split; auto. rewrite Es. apply derives_app; auto.
      change (Nt B :: skipn (S pos) (g_rhs r)) with ([Nt B] ++ skipn (S pos) (g_rhs r)).
      apply derives_app; auto. now apply generates_derives. }
    exists (w4 ++ v). rewrite <- !app_assoc in Gv. rewrite app_assoc in Gv.
    rewrite <- slice_prefix, slice_app, slice_prefix in Gv by lia. exact Gv.
Qed.

Lemma valid_viable : productive T -> forall i it, valid data T i it -> viable T (firstn i data).
Proof.
  intros PT i it [V1 [V2 [V3 V4]]].
  destruct (PT _ _ (predicted_reach V1) V2) as [w W].
  rewrite <- (firstn_skipn (it_pos it) (g_rhs (it_rl it))) in W. apply derives_split in W.
  destruct W as [w1 [w2 [_ [_ W2]]]].
  pose proof (dspan_le V4) as L. apply dspan_derives in V4.
  destruct (@predicted_context PT _ _ V1 (slice data (it_start it) i ++ w2)) as [v Gv].
  { exists (it_rl it). split; auto. rewrite <- (firstn_skipn (it_pos it) (g_rhs (it_rl it))). now apply derives_app. }
  exists (w2 ++ v). rewrite <- !app_assoc in Gv. rewrite app_assoc in Gv.
  rewrite <- slice_prefix, slice_app, slice_prefix in Gv by lia. exact Gv.
Qed.

Lemma valid_viable_tm : productive T -> forall i it bits c, valid data T i it ->
  next_sym it = Some (Tm bits) -> N.testbit bits c = true -> viable T (firstn i data ++ [c]).
Proof.
  intros PT i it bits c [V1 [V2 [V3 V4]]] N M. unfold next_sym in N.
  destruct (PT _ _ (predicted_reach V1) V2) as [w W].
  assert (Es : g_rhs (it_rl it) = firstn (it_pos it) (g_rhs (it_rl it)) ++ Tm bits :: skipn (S (it_pos it)) (g_rhs (it_rl it))).
  { rewrite <- (firstn_skipn (it_pos it) (g_rhs (it_rl it))) at 1. f_equal. clear - N.
    revert N. generalize (it_pos it). induction (g_rhs (it_rl it)) as [|x l IH]; intros [|pos] N; simpl in *; try discriminate.
    - congruence.
    - now apply IH. }
  rewrite Es in W. apply derives_split in W. destruct W as [w1 [w2 [_ [_ W2]]]].
  assert (X : exists w0, derives (skipn (S (it_pos it)) (g_rhs (it_rl it))) w0).
  { inversion W2; subst. eauto. }
  destruct X as [w0 X].
  pose proof (dspan_le V4) as L. apply dspan_derives in V4.
  destruct (@predicted_context PT _ _ V1 (slice data (it_start it) i ++ c :: w0)) as [v Gv].
  { exists (it_rl it). split; auto. rewrite Es. apply derives_app; auto. now constructor. }
  exists (w0 ++ v). rewrite <- !app_assoc in Gv. rewrite app_assoc in Gv.
  rewrite <- slice_prefix, slice_app, slice_prefix in Gv by lia. rewrite <- app_assoc. exact Gv.
Qed.

End Fixed.

Lemma predicted_ext data data' T i A : predicted data T i A -> forall n, i <= n -> n <= List.length data' ->
  firstn n data' = firstn n data -> predicted data' T i A.
Proof.
  induction 1 as [|k A r pos B i P IH Ir N D]; intros n Ln L E; [constructor|].
  pose proof (dspan_le D). eapply predicted_step; eauto.
  - apply (IH n); auto. lia.
  - eapply dspan_ext; eauto; [|lia].
    rewrite <- (Nat.min_l i n) by lia. rewrite <- !firstn_firstn. now rewrite E.
Qed.

Lemma valid_ext data data' T i it : valid data T i it -> i <= List.length data' ->
  firstn i data' = firstn i data -> valid data' T i it.
Proof.
  intros [V1 [V2 [V3 V4]]] L E. pose proof (dspan_le V4). repeat split; auto.
  - apply (@predicted_ext data data' T (it_start it) (it_nt it) V1 i); [lia|lia|exact E].
  - eapply dspan_ext; eauto.
Qed.

(** A derivation that crosses position [n] passes through an item there that
    waits for the terminal. *)
Lemma crossing data T : forall ss j i, dspan data ss j i ->
  forall it n c, valid data T j it ->
    (exists pre rest, g_rhs (it_rl it) = pre ++ ss ++ rest /\ List.length pre = it_pos it) ->
    j <= n -> n < i -> nth_error data n = Some c ->
    exists it' bits, valid data T n it' /\ next_sym it' = Some (Tm bits) /\ tmatch bits c = true.
Proof.
  induction 1 as [k L|bits c0 ss k i E M D IH|A r ss k j i Ir D1 IH1 D2 IH2];
    intros it n c V [pre [rest [ER EL]]] L1 L2 Ec; [lia| |].
  - assert (N : next_sym it = Some (Tm bits)).
    { unfold next_sym. rewrite ER, nth_error_app2 by lia. rewrite EL, Nat.sub_diag. reflexivity. }
    destruct (Nat.eq_dec n k) as [->|NE].
    + exists it, bits. repeat split; auto; try apply V. congruence.
    + eapply (IH (advance it)); eauto; try lia.
      * eapply valid_advance; eauto. econstructor; eauto. constructor. apply dspan_le in D. lia.
      * exists (pre ++ [Tm bits]), rest. cbn [advance it_rl it_pos]. rewrite app_length. simpl.
        split; [|lia]. rewrite ER. now rewrite <- app_assoc.
  - assert (N : next_sym it = Some (Nt A)).
    { unfold next_sym. rewrite ER, nth_error_app2 by lia. rewrite EL, Nat.sub_diag. reflexivity. }
    destruct (Nat.lt_ge_cases n j) as [Lj|Lj].
    + eapply (IH1 (Item A r 0 k)); eauto.
      * eapply valid_predict; eauto.
      * exists [], []. cbn [it_rl it_pos]. rewrite app_nil_r. auto.
    + eapply (IH2 (advance it)); eauto.
      * eapply valid_advance; eauto. econstructor; eauto. constructor. apply dspan_le in D1. lia.
      * exists (pre ++ [Nt A]), rest. cbn [advance it_rl it_pos]. rewrite app_length. simpl.
        split; [|lia]. rewrite ER. now rewrite <- app_assoc.
Qed.

Lemma generates_dspan A w : generates A w -> exists r, In r (g_rules A) /\ dspan w (g_rhs r) 0 (List.length w).
Proof. intros [r [I D]]. exists r. split; auto. now apply derives_dspan_all. Qed.

Lemma viable_valid_tm data T i c : i <= List.length data -> viable T (firstn i data ++ [c]) ->
  exists it bits, valid data T i it /\ next_sym it = Some (Tm bits) /\ N.testbit bits c = true.
Proof.
  intros L [v Gv]. rewrite <- app_assoc in Gv. cbn [app] in Gv.
  set (data' := firstn i data ++ c :: v) in *.
  destruct (generates_dspan Gv) as [r [Ir D]].
  assert (Li : List.length (firstn i data) = i) by (rewrite firstn_length; lia).
  assert (Ld : List.length data' = i + S (List.length v)).
  { unfold data'. rewrite app_length, Li. reflexivity. }
  destruct (@crossing data' T _ _ _ D (Item T r 0 0) i c) as [it [bits [V [N M]]]].
  - now apply valid_0.
  - exists [], []. cbn [it_rl it_pos]. rewrite app_nil_r. auto.
  - lia.
  - lia.
  - unfold data'. rewrite nth_error_app2 by lia. rewrite Li, Nat.sub_diag. reflexivity.
  - exists it, bits. split; [|split; [exact N|exact M]].
    eapply valid_ext; eauto. unfold data'. rewrite firstn_app, Li, Nat.sub_diag. cbn [firstn].
    rewrite app_nil_r, firstn_firstn, Nat.min_id. reflexivity.
Qed.

Lemma viable_valid data T i : i <= List.length data -> viable T (firstn i data) ->
  exists it, valid data T i it.
Proof.
  intros L [[|c v] Gv].
  - rewrite app_nil_r in Gv. destruct (generates_dspan Gv) as [r [Ir D]].
    assert (Li : List.length (firstn i data) = i) by (rewrite firstn_length; lia). rewrite Li in D.
    exists (Item T r (List.length (g_rhs r)) 0). repeat split; cbn [it_nt it_rl it_pos it_start]; auto.
    + constructor.
    + rewrite firstn_all. eapply dspan_ext; eauto. rewrite firstn_firstn, Nat.min_id. reflexivity.
  - destruct (@viable_valid_tm data T i c) as [it [bits [V _]]]; eauto.
    exists v. now rewrite <- app_assoc.
Qed.

End Error.
