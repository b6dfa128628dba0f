(** C01 - C05, C60: the Earley parser behind [parse()]. *)
From Coq Require Import ZifyBool ZifyNat ZifyN.
From Verif Require Import Base Earley EarleySpec EarleyChart EarleyItems EarleyTerm EarleySearch EarleyTop EarleyMain.
Open Scope nat_scope.
Unset Strict Implicit.

(** The grammars the theorems are about.  Nothing is said about ambiguity,
    cycles, left or right recursion, or empty rules.  The conditions are: from
    the start symbol [T] only finitely many symbols can be reached; the
    recursive nullability test ends on each of them; repetitions have the
    two rules that [RepeatedNonterminal.rules] gives them; and [T] has at
    least one rule. *)
Record well_formed {G : grammar} (T : nt G) : Prop := WF {
  wf_finite : finite_from T;
  wf_nullable : nullable_ends T;
  wf_rep : @rep_ok G;
  wf_rules : g_rules T <> []
}.

(** [parse(data, T)] ends with this outcome, for some number of loop turns. *)
Definition returns {G : grammar} {R : Type} leaf act act_rep (data : str) (T : nt G) (p : @parsed G R) : Prop :=
  exists f, inner_parse leaf act act_rep f data T = Done p.

Section Theorems.
Context {G : grammar} {R : Type}.
Variable leaf : N -> R.
Variable act : nt G -> rl G -> nat -> nat -> list R -> R.
Variable act_rep : list R -> R.

Lemma returns_unique data (T : nt G) p q :
  returns leaf act act_rep data T p -> returns leaf act act_rep data T q -> p = q.
Proof.
  intros [f Hf] [g Hg].
  apply (@parse_mono G R leaf act act_rep f (f + g)) in Hf; [|lia].
  apply (@parse_mono G R leaf act act_rep g (f + g)) in Hg; [|lia]. congruence.
Qed.

End Theorems.

(** C01: a result is returned exactly on the strings of the language; on any
    other string [ParseError] is raised. *)
Theorem C01_parser_accepts_language :
  forall (G : grammar) (R : Type) leaf act act_rep (T : nt G), well_formed T ->
  forall data,
    (generates T data <-> exists r : R, returns leaf act act_rep data T (Accepted r)) /\
    (~ generates T data <-> exists e, returns leaf act act_rep data T (@Rejected G R e)).
Proof.
  intros G R leaf act act_rep T [FT NT RO NE] data.
  destruct (@parse_ends G R leaf act act_rep data T FT NT RO NE) as [f [p H]].
  assert (X : generates T data <-> exists r : R, returns leaf act act_rep data T (Accepted r)).
  { split.
    - intro Gd. destruct (generates_accepted RO Gd H) as [r ->]. exists r. now exists f.
    - intros [r [g Hg]]. destruct (accepted_means RO Hg) as [t [T1 [<- _]]]. now apply tree_generates. }
  split; [exact X|]. rewrite X. split.
  - intro N. destruct p as [r|e].
    + elim N. exists r. now exists f.
    + exists e. now exists f.
  - intros [e He] [r Hr]. pose proof (returns_unique He Hr). discriminate.
Qed.
Print Assumptions C01_parser_accepts_language.

(** C02: what is returned is the meaning of a derivation tree of the whole
    input.  [R], [leaf], [act] and [act_rep] are arbitrary: a value of [R]
    stands for a node with its complaints and annotations. *)
Theorem C02_result_is_meaning :
  forall (G : grammar) (R : Type) leaf act act_rep (T : nt G) data (r : R),
  @rep_ok G ->
  returns leaf act act_rep data T (Accepted r) ->
  exists t, tree_of (Nt T) t /\ tree_yield t = data /\ r = meaning leaf act act_rep 0 t.
Proof. intros G R leaf act act_rep T data r RO [f H]. exact (accepted_means RO H). Qed.
Print Assumptions C02_result_is_meaning.

(** For an unambiguous input it is thus the meaning of the only tree. *)
Theorem C02_unambiguous :
  forall (G : grammar) (R : Type) leaf act act_rep (T : nt G) data t,
  well_formed T -> tree_of (Nt T) t -> tree_yield t = data ->
  (forall t', tree_of (Nt T) t' -> tree_yield t' = data -> t' = t) ->
  returns leaf act act_rep data T (Accepted (meaning leaf act act_rep 0 t : R)).
Proof.
  intros G R leaf act act_rep T data t W HT Y U.
  destruct (@C01_parser_accepts_language G R leaf act act_rep T W data) as [[A _] _].
  destruct A as [r Hr]. { rewrite <- Y. now apply tree_generates. }
  destruct (C02_result_is_meaning (wf_rep W) Hr) as [t' [T1 [T2 ->]]].
  now rewrite (U t' T1 T2) in Hr.
Qed.
Print Assumptions C02_unambiguous.

(** C03: the parser ends, with an answer that does not depend on how many
    turns it is allowed. *)
Theorem C03_parser_terminates :
  forall (G : grammar) (R : Type) leaf act act_rep (T : nt G), well_formed T ->
  forall data, exists n (p : @parsed G R), forall f, n <= f ->
    inner_parse leaf act act_rep f data T = Done p.
Proof.
  intros G R leaf act act_rep T [FT NT RO NE] data.
  destruct (@parse_ends G R leaf act act_rep data T FT NT RO NE) as [f [p H]].
  exists f, p. intros f' L. eapply parse_mono; eauto.
Qed.
Print Assumptions C03_parser_terminates.

(** C04: the position is that of the longest continuable prefix, [found] is
    the byte there, and the expected terminals contain exactly the bytes that
    may come next. *)
Theorem C04_error_exact :
  forall (G : grammar) (R : Type) leaf act act_rep (T : nt G) data e,
  productive T ->
  returns leaf act act_rep data T (@Rejected G R e) ->
  pe_position e <= List.length data
  /\ viable T (firstn (pe_position e) data)
  /\ (forall n, pe_position e < n -> n <= List.length data -> ~ viable T (firstn n data))
  /\ pe_found e = nth_error data (pe_position e)
  /\ (forall c, viable T (firstn (pe_position e) data ++ [c]) <->
        exists bits ps, In (ExpTerminal bits ps) (pe_expected e) /\ N.testbit bits c = true).
Proof.
  intros G R leaf act act_rep T data e PT [f H].
  destruct (rejected_error H) as [chart [EX [Z B]]].
  destruct (error_items EX Z B) as [L [Fd [[it0 V0] [NV [ET [_ PS]]]]]].
  split; [exact L|]. split; [eapply valid_viable; eauto|]. split; [|split; [exact Fd|]].
  - intros n Ln Ld Vn. destruct (viable_valid Ld Vn) as [it V]. eapply NV; eauto.
  - intro c. split.
    + intro V. destruct (viable_valid_tm L V) as [it [bits [Vi [N M]]]].
      destruct (PS _ _ Vi N) as [ps P]. exists bits, ps. split; auto. apply ET. eauto.
    + intros [bits [ps [I M]]]. apply ET in I. destruct I as [it [V [N _]]].
      eapply valid_viable_tm; eauto.
Qed.
Print Assumptions C04_error_exact.

(** C05: 'end of data' is listed exactly when the input cut at the error
    position ends in a string of the language that stands where the start symbol
    may occur, at the beginning or inside itself. *)
Inductive opens {G : grammar} (T : nt G) : str -> nt G -> Prop :=
| opens_top : opens T [] T
| opens_in x A r before B after y :
    opens T x A -> In r (g_rules A) -> g_rhs r = before ++ Nt B :: after -> derives before y -> opens T (x ++ y) B.

Lemma predicted_opens {G : grammar} data (T : nt G) k A : predicted data T k A -> k <= List.length data /\ opens T (firstn k data) A.
Proof.
  induction 1 as [|k A r pos B i P [L O] Ir N D]; [split; [lia|constructor]|].
  pose proof (dspan_le D) as [L1 L2]. split; [exact L2|]. apply dspan_derives in D.
  assert (E : firstn i data = firstn k data ++ slice data k i).
  { rewrite <- (slice_prefix data k), <- (slice_prefix data i). symmetry. apply slice_app; lia. }
  rewrite E. apply nth_error_split in N. destruct N as (l1 & l2 & Er & El). rewrite Er, firstn_app in D.
  replace (pos - List.length l1) with 0 in D by lia. rewrite firstn_O, app_nil_r, firstn_all2 in D by lia. eapply opens_in; eauto.
Qed.
Lemma opens_predicted {G : grammar} (T : nt G) x A : opens T x A -> forall v, predicted (x ++ v) T (List.length x) A.
Proof.
  induction 1 as [|x A r before B after y O IH Ir Er D]; intro v; [constructor|].
  rewrite app_length, <- app_assoc. eapply predicted_step; [apply (IH (y ++ v))|exact Ir|rewrite Er, nth_error_app2, Nat.sub_diag; [reflexivity|lia]|].
  rewrite Er, firstn_app, Nat.sub_diag, firstn_O, app_nil_r, firstn_all2 by lia. now apply derives_dspan.
Qed.

Theorem C05_end_of_data :
  forall (G : grammar) (R : Type) leaf act act_rep (T : nt G) data e,
  returns leaf act act_rep data T (@Rejected G R e) ->
  (In ExpEnd (pe_expected e) <->
   exists x y, firstn (pe_position e) data = x ++ y /\ opens T x T /\ generates T y).
Proof.
  intros G R leaf act act_rep T data e [f H].
  destruct (rejected_error H) as [chart [EX [Z B]]].
  destruct (error_items EX Z B) as [L [_ [_ [_ [_ [EE _]]]]]]. rewrite EE. split.
  - intros [it [[V1 [V2 [V3 V4]]] [N E]]]. rewrite E in *. unfold next_sym in N. apply nth_error_None in N.
    rewrite firstn_all2 in V4 by lia. pose proof (dspan_le V4) as [L1 L2]. apply predicted_opens in V1. destruct V1 as [_ O].
    exists (firstn (it_start it) data), (slice data (it_start it) (pe_position e)). split; [|split; [exact O|]].
    + rewrite <- (slice_prefix data (it_start it)), <- (slice_prefix data (pe_position e)). symmetry. apply slice_app; lia.
    + exists (it_rl it). split; [exact V2|]. now apply dspan_derives.
  - intros (x & y & E & O & (r & Ir & D)).
    assert (Ed : data = x ++ y ++ skipn (pe_position e) data) by (rewrite app_assoc, <- E; symmetry; apply firstn_skipn).
    assert (Ep : pe_position e = List.length x + List.length y) by (rewrite <- app_length, <- E, firstn_length; lia).
    exists (Item T r (List.length (g_rhs r)) (List.length x)). split; [|split; [unfold next_sym; cbn [it_rl it_pos]; apply nth_error_None; lia|reflexivity]].
    repeat split; cbn [it_nt it_rl it_pos it_start]; auto.
    + rewrite Ed. now apply opens_predicted.
    + rewrite firstn_all, Ep, Ed. now apply derives_dspan.
Qed.
Print Assumptions C05_end_of_data.

(** So it is listed if the input cut there is accepted, and the converse holds
    unless the start symbol occurs inside itself: see [C05_end_of_data_refuted]. *)
Definition self_nested {G : grammar} (T : nt G) : Prop :=
  exists B r, reach T B /\ In r (g_rules B) /\ In (Nt T) (g_rhs r).

Lemma predicted_top {G : grammar} data (T : nt G) k : ~ self_nested T -> predicted data T k T -> k = 0.
Proof.
  intros NS P. inversion P as [|k0 A r pos B i P' Ir N D]; subst; auto.
  exfalso. apply NS. exists A, r. repeat split; auto.
  - eapply predicted_reach; eauto.
  - eapply nth_error_In; eauto.
Qed.

Theorem C05_end_of_data_unnested :
  forall (G : grammar) (R : Type) leaf act act_rep (T : nt G) data e,
  returns leaf act act_rep data T (@Rejected G R e) ->
  (generates T (firstn (pe_position e) data) -> In ExpEnd (pe_expected e)) /\
  (~ self_nested T -> In ExpEnd (pe_expected e) -> generates T (firstn (pe_position e) data)).
Proof.
  intros G R leaf act act_rep T data e [f H].
  destruct (rejected_error H) as [chart [EX [Z B]]].
  destruct (error_items EX Z B) as [L [_ [_ [_ [_ [EE _]]]]]]. split.
  - intro Gp. apply EE. destruct (generates_dspan Gp) as [r [Ir D]].
    assert (Li : List.length (firstn (pe_position e) data) = pe_position e) by (rewrite firstn_length; lia).
    rewrite Li in D. exists (Item T r (List.length (g_rhs r)) 0).
    repeat split; cbn [it_nt it_rl it_pos it_start]; auto.
    + constructor.
    + rewrite firstn_all. eapply dspan_ext; eauto. rewrite firstn_firstn, Nat.min_id. reflexivity.
    + unfold next_sym. cbn [it_rl it_pos]. apply nth_error_None. lia.
  - intros NS I. apply EE in I. destruct I as [it [[V1 [V2 [V3 V4]]] [N E]]].
    rewrite E in *. apply (predicted_top NS) in V1. unfold next_sym in N. apply nth_error_None in N.
    rewrite firstn_all2 in V4 by lia. rewrite V1 in V4. exists (it_rl it). split; auto.
    apply dspan_derives in V4. now rewrite slice_prefix in V4.
Qed.
Print Assumptions C05_end_of_data_unnested.

(** C60: the symbols named as the context of an expectation are right: each
    is marked as a pivot, begins at some offset [k] of the continuable prefix
    in a string of the language, and spans the error position with any of the
    expected bytes. *)
Theorem C60_pivots_sound :
  forall (G : grammar) (R : Type) leaf act act_rep (T : nt G) data e bits ps (p : nt G) c,
  productive T ->
  returns leaf act act_rep data T (@Rejected G R e) ->
  In (ExpTerminal bits ps) (pe_expected e) -> In p ps -> N.testbit bits c = true ->
  g_pivot p = true /\
  exists u w v x, firstn (pe_position e) data = u ++ v
    /\ generates p (v ++ c :: w) /\ generates T (u ++ (v ++ c :: w) ++ x).
Proof.
  intros G R leaf act act_rep T data e bits ps p c PT [f H] I Ip M.
  destruct (rejected_error H) as [chart [EX [Z B]]].
  destruct (error_items EX Z B) as [L [_ [_ [_ [ET [EE _]]]]]].
  apply ET in I. destruct I as [it [V [N P]]]. destruct V as [V1 [V2 [V3 V4]]].
  assert (X : exists w, generates (it_nt it) (slice data (it_start it) (pe_position e) ++ [c] ++ w)).
  { unfold next_sym in N. destruct (PT _ _ (predicted_reach V1) V2) as [w W].
    assert (Es : g_rhs (it_rl it) = firstn (it_pos it) (g_rhs (it_rl it)) ++ Tm bits :: skipn (S (it_pos it)) (g_rhs (it_rl it))).
    { rewrite <- (firstn_skipn (it_pos it) (g_rhs (it_rl it))) at 1. f_equal. clear - N.
      revert N. generalize (it_pos it). induction (g_rhs (it_rl it)) as [|x l IH]; intros [|pos] N; simpl in *; try discriminate.
      - congruence.
      - now apply IH. }
    rewrite Es in W. apply derives_split in W. destruct W as [w1 [w2 [_ [_ W2]]]].
    assert (X : exists w0, derives (skipn (S (it_pos it)) (g_rhs (it_rl it))) w0) by (inversion W2; subst; eauto).
    destruct X as [w0 X]. exists w0. exists (it_rl it). split; auto. rewrite Es.
    apply derives_app; [now apply dspan_derives|]. now apply derives_tm. }
  pose proof (dspan_le V4) as Lk.
  assert (Lk' : it_start it <= pe_position e) by lia.
  destruct (@pivots_sound G R leaf act act_rep data T chart EX PT f _ _ _ _ (pe_position e) [c] P V1 Lk' X p Ip) as [G1 [k [w [v [K1 [K2 K3]]]]]].
  split; auto. exists (firstn k data), w, (slice data k (pe_position e)), v. split; [|split; assumption].
  rewrite <- (@slice_prefix data (pe_position e)), <- (@slice_app data 0 k) by lia.
  now rewrite slice_prefix.
Qed.
Print Assumptions C60_pivots_sound.

(** * Concrete grammars *)

Record table := Table { tb_rules : nat -> list (list (sym nat)); tb_rep : nat -> bool; tb_pivot : nat -> bool }.

Definition pair_eq_dec : forall a b : nat * nat, {a = b} + {a <> b}.
Proof. decide equality; apply Nat.eq_dec. Defined.

Definition table_grammar (t : table) : grammar :=
  @Grammar nat (nat * nat) Nat.eq_dec pair_eq_dec
    (fun A => map (fun i => (A, i)) (seq 0 (List.length (tb_rules t A))))
    (fun r => nth (snd r) (tb_rules t (fst r)) [])
    (tb_rep t) (tb_pivot t).

(** Nested comments, as in the comment symbol of RFC 7230:
    0 = '(' 1 ')' (a pivot);  1 = many(2);  2 = a-z | 0. *)
Definition letters : N := N.shiftl (N.ones 26) 97.
Definition comments : grammar := table_grammar
  (Table (fun A => match A with
                   | 0 => [[Tm (N.shiftl 1 40); Nt 1; Tm (N.shiftl 1 41)]]
                   | 1 => [[]; [Nt 1; Nt 2]]
                   | 2 => [[Tm letters]; [Nt 0]]
                   | _ => []
                   end)
         (fun A => A =? 1) (fun A => A =? 0)).

(** Highly ambiguous and cyclic: 0 = empty | 0 0 | 'a'. *)
Definition cyclic : grammar := table_grammar
  (Table (fun A => match A with
                   | 0 => [[]; [Nt 0; Nt 0]; [Tm (N.shiftl 1 97)]]
                   | _ => []
                   end)
         (fun _ => false) (fun A => A =? 0)).

Ltac in_rules H := simpl in H; repeat (destruct H as [H|H]; [subst|]); try contradiction; try discriminate.

Lemma comments_wf : @well_formed comments 0.
Proof.
  split.
  - exists [0; 1; 2]. split; [simpl; auto|]. intros A r B I Ir IB.
    in_rules I; in_rules Ir; in_rules IB; injection IB as <-; simpl; auto.
  - exists 4. intros B RB.
    assert (X : In B [0; 1; 2]).
    { induction RB as [|B r C RB IH Ir IC]; [simpl; auto|].
      in_rules IH; in_rules Ir; in_rules IC; injection IC as <-; simpl; auto. }
    in_rules X; eexists; vm_compute; reflexivity.
  - intros A r Ir RR. destruct A as [|[|[|A]]]; [discriminate| |discriminate|discriminate].
    in_rules Ir. repeat split.
    + now exists (Nt 2).
    + exists (1, 0). simpl. auto.
    + intros r' I'. in_rules I'; auto.
  - discriminate.
Qed.

Lemma derives_1 {G : grammar} (x : sym (nt G)) ss u v :
  derives [x] u -> derives ss v -> derives (x :: ss) (u ++ v).
Proof. intros H1 H2. change (x :: ss) with ([x] ++ ss). now apply derives_app. Qed.

Lemma comments_productive : @productive comments 0.
Proof.
  assert (D1 : @derives comments [Nt 1] []).
  { change (@nil N) with (@nil N ++ []). apply (@derives_nt comments 1 (1, 0)); [simpl; auto|constructor|constructor]. }
  assert (D0 : @derives comments [Tm (N.shiftl 1 40); Nt 1; Tm (N.shiftl 1 41)] [40%N; 41%N]).
  { constructor; [reflexivity|]. change [41%N] with ([] ++ [41%N]).
    apply (@derives_1 comments (Nt 1)); [exact D1|]. constructor; [reflexivity|constructor]. }
  assert (D2 : @derives comments [Nt 2] [97%N]).
  { change [97%N] with ([97%N] ++ []). apply (@derives_nt comments 2 (2, 0)); [simpl; auto| |constructor].
    constructor; [reflexivity|constructor]. }
  assert (D0' : @derives comments [Nt 0] [40%N; 41%N]).
  { change [40%N; 41%N] with ([40%N; 41%N] ++ []). apply (@derives_nt comments 0 (0, 0)); [simpl; auto|exact D0|constructor]. }
  intros B r _ Ir. destruct B as [|[|[|B]]]; in_rules Ir.
  - eexists. exact D0.
  - exists []. constructor.
  - eexists. apply (@derives_1 comments (Nt 1)); [exact D1|exact D2].
  - exists [97%N]. constructor; [reflexivity|constructor].
  - eexists. exact D0'.
Qed.

Lemma cyclic_wf : @well_formed cyclic 0.
Proof.
  split.
  - exists [0]. split; [simpl; auto|]. intros A r B I Ir IB.
    in_rules I; in_rules Ir; in_rules IB; injection IB as <-; simpl; auto.
  - exists 2. intros B RB.
    assert (X : In B [0]).
    { induction RB as [|B r C RB IH Ir IC]; [simpl; auto|].
      in_rules IH; in_rules Ir; in_rules IC; injection IC as <-; simpl; auto. }
    in_rules X; eexists; vm_compute; reflexivity.
  - intros A r Ir RR. discriminate.
  - discriminate.
Qed.

(** Results: the spans of the nonterminals, in order. *)
Definition spans := list (nat * nat * nat).
Definition sp_leaf (_ : N) : spans := [].
Definition sp_act {t : table} (A : nt (table_grammar t)) (r : rl (table_grammar t)) (k i : nat) (l : list spans) : spans :=
  (A, k, i) :: List.concat l.
Definition sp_rep (l : list spans) : spans := (9, List.length l, 9) :: List.concat l.

Definition run_comments := @inner_parse comments spans sp_leaf sp_act sp_rep 60.
Definition run_cyclic := @inner_parse cyclic spans sp_leaf sp_act sp_rep 200.

Example C01_example_accepted :
  run_comments (s "(a(b)c)") 0
  = Done (Accepted [(0, 0, 7); (9, 3, 9); (2, 1, 2); (2, 2, 5); (0, 2, 5); (9, 1, 9); (2, 3, 4); (2, 5, 6)]).
Proof. vm_compute. reflexivity. Qed.

Example C01_example_cyclic :
  run_cyclic (s "aa") 0 = Done (Accepted [(0, 0, 2); (0, 0, 1); (0, 1, 2)]).
Proof. vm_compute. reflexivity. Qed.

Example C01_example_rejected : exists e, run_comments (s "(a(b)c") 0 = Done (Rejected e)
  /\ pe_position e = 6 /\ pe_found e = None.
Proof. eexists. split; [vm_compute; reflexivity|split; reflexivity]. Qed.

(** So the hypotheses of C01 and C03 hold for both grammars, and these runs
    are instances of the theorems. *)
Example C03_example : exists n p, forall f, n <= f ->
  @inner_parse cyclic spans sp_leaf sp_act sp_rep f (s "aa") 0 = Done p.
Proof. exact (C03_parser_terminates sp_leaf sp_act sp_rep cyclic_wf (s "aa")). Qed.

Example C04_example : exists e, run_comments (s "(a!") 0 = Done (Rejected e)
  /\ pe_position e = 2 /\ pe_found e = Some 33%N
  /\ pe_expected e = [@ExpTerminal comments (N.shiftl 1 41) [0]; @ExpTerminal comments letters [0]; @ExpTerminal comments (N.shiftl 1 40) [0]].
Proof. eexists. split; [vm_compute; reflexivity|repeat split]. Qed.

Example C04_example_applies : @viable comments 0 (s "(a").
Proof.
  destruct C04_example as [e [H [P _]]].
  destruct (C04_error_exact comments_productive (ex_intro _ 60 H)) as [_ [V _]].
  rewrite P in V. exact V.
Qed.

(** C05 fails when the start symbol can occur inside itself: on "((a)" the
    comment parser says that it expected, among others, the end of data --
    which is what it found. *)
Theorem C05_end_of_data_refuted :
  exists data e, returns sp_leaf sp_act sp_rep data (0 : nt comments) (@Rejected comments spans e)
    /\ In ExpEnd (pe_expected e) /\ ~ generates (0 : nt comments) (firstn (pe_position e) data)
    /\ pe_found e = None.
Proof.
  exists (s "((a)"). eexists. split; [exists 60; vm_compute; reflexivity|].
  split; [simpl; auto|]. split; [|reflexivity].
  intro X. destruct (@C01_parser_accepts_language comments spans sp_leaf sp_act sp_rep 0 comments_wf (s "((a)")) as [_ [_ Y]].
  apply Y; [|exact X]. eexists. exists 60. vm_compute. reflexivity.
Qed.
Print Assumptions C05_end_of_data_refuted.

(** A grammar that is not self-nested: 0 = 'a' | 'a' 'b'. *)
Definition plain : grammar := table_grammar
  (Table (fun A => match A with
                   | 0 => [[Tm (N.shiftl 1 97)]; [Tm (N.shiftl 1 97); Tm (N.shiftl 1 98)]]
                   | _ => []
                   end)
         (fun _ => false) (fun A => A =? 0)).

Example C05_example : ~ @self_nested plain 0 /\
  exists e, @inner_parse plain spans sp_leaf sp_act sp_rep 20 (s "ac") 0 = Done (Rejected e)
    /\ pe_position e = 1 /\ In ExpEnd (pe_expected e).
Proof.
  split.
  - intros [B [r [_ [Ir IB]]]]. destruct B; in_rules Ir; in_rules IB.
  - eexists. split; [vm_compute; reflexivity|]. split; [reflexivity|simpl; auto].
Qed.

(** C03 needs the nullability test to end: for 0 = 0 'a' | 'a' it does not
    (in Python, [RecursionError]). *)
Definition left_recursive : grammar := table_grammar
  (Table (fun A => match A with
                   | 0 => [[Nt 0; Tm (N.shiftl 1 97)]; [Tm (N.shiftl 1 97)]]
                   | _ => []
                   end)
         (fun _ => false) (fun A => A =? 0)).

Theorem C03_left_recursion_refuted :
  @finite_from left_recursive 0 /\ @rep_ok left_recursive /\
  forall f data, @inner_parse left_recursive spans sp_leaf sp_act sp_rep f data 0 = NoFuel.
Proof.
  split; [|split].
  - exists [0]. split; [simpl; auto|]. intros A r B I Ir IB.
    in_rules I; in_rules Ir; in_rules IB; injection IB as <-; simpl; auto.
  - intros A r Ir RR. discriminate.
  - assert (X : forall f, @is_nullable left_recursive f 0 = NoFuel).
    { induction f as [|f IH]; [reflexivity|]. cbn [is_nullable].
      change (obind (obind (@is_nullable left_recursive f 0) (fun b => if b then Done false else Done false))
                    (fun b => if b then Done true else Done false) = NoFuel).
      rewrite IH. reflexivity. }
    assert (Y : forall f i tok chart j items next,
      nth_error items j = Some (Item (0 : nt left_recursive) (0, 0) 0 0) ->
      inner_loop f i tok chart j items next = NoFuel).
    { intros [|f] i tok chart j items next E; [reflexivity|]. cbn [inner_loop]. rewrite E.
      unfold process. change (next_sym (Item (0 : nt left_recursive) (0, 0) 0 0)) with (Some (Nt 0 : sym (nt left_recursive))).
      cbn iota. now rewrite X. }
    intros f data. unfold inner_parse, build_chart.
    assert (Q : outer_loop f 0 data [] (seed (0 : nt left_recursive)) = NoFuel).
    { destruct data as [|c data]; cbn [outer_loop];
        change (seed (0 : nt left_recursive)) with [Item (0 : nt left_recursive) (0, 0) 0 0; Item (0 : nt left_recursive) (0, 1) 0 0];
        cbn iota; rewrite Y; reflexivity. }
    now rewrite Q.
Qed.
Print Assumptions C03_left_recursion_refuted.

(** C60: the pivot of the error of [C04_example]. *)
Example C60_example : exists u w v x, s "(a" = u ++ v /\ @generates comments 0 (v ++ 41%N :: w)
  /\ @generates comments 0 (u ++ (v ++ 41%N :: w) ++ x).
Proof.
  destruct C04_example as [e [H [P [_ E]]]].
  assert (I1 : In (ExpTerminal (N.shiftl 1 41) [0 : nt comments]) (pe_expected e)) by (rewrite E; left; reflexivity).
  destruct (@C60_pivots_sound comments spans sp_leaf sp_act sp_rep 0 _ _ _ _ 0 41%N comments_productive (ex_intro _ 60 H) I1
              (or_introl eq_refl) eq_refl) as [_ Y].
  rewrite P in Y. exact Y.
Qed.
