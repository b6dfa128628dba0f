(** More of the calculus: symbols with one value. *)
From Coq Require Import ZifyBool ZifyNat ZifyN Permutation String.
From Verif Require Import Base Earley EarleySpec Parse Grammar GrammarSem GrammarLang GrammarWF GrammarVals GrammarExcl GrammarCalc
  Syntax Actions Reading HttpText HttpValues SyntaxVals SyntaxDen SyntaxParts.
Open Scope nat_scope.
Open Scope list_scope.
Unset Strict Implicit.
Local Open Scope string_scope.
Local Open Scope list_scope.

Definition visible (S : reading) : Prop := forall w v cs, S w v cs -> v <> VSkip.
Definition plain (L : str -> Prop) (f : str -> val) : reading := fun w v cs => L w /\ v = f w /\ cs = [].
Definition either (S1 S2 : reading) : reading := fun w v cs => S1 w v cs \/ S2 w v cs.
Definition optional (S : reading) (d : val) : reading := fun w v cs => S w v cs \/ w = [] /\ v = d /\ cs = [].
Definition before (m : str) (S : reading) : reading := fun w v cs => exists u, w = m ++ u /\ S u v cs.
Definition after (S : reading) (m : str) : reading := fun w v cs => exists u, w = u ++ m /\ S u v cs.
(** What is left out, with its complaints. *)
Definition gap (G : str -> list vcomplaint -> Prop) : relation := fun w ns cs => G w cs /\ ns = [].
Definition gap_before (G : str -> list vcomplaint -> Prop) (S : reading) : reading := fun w v cs =>
  exists g u c1 c2, w = g ++ u /\ G g c1 /\ S u v c2 /\ cs = c1 ++ c2.
Definition gap_after (S : reading) (G : str -> list vcomplaint -> Prop) : reading := fun w v cs =>
  exists u g c1 c2, w = u ++ g /\ S u v c1 /\ G g c2 /\ cs = c1 ++ c2.
Definition two (f : val -> val -> val) (S1 S2 : reading) : reading := fun w v cs =>
  exists w1 w2 v1 v2 c1 c2, w = w1 ++ w2 /\ S1 w1 v1 c1 /\ S2 w2 v2 c2 /\ v = f v1 v2 /\ cs = c1 ++ c2.

Section Kit.
Variable nested : pyf -> list val -> val * list vcomplaint.
Notation pf := (pyfun nested).
Notation textual := (textual rec_rules pf).
Notation M := (M rec_rules pf).
Notation V := (V rec_rules pf).
Notation A := (A rec_rules pf).
Notation is_M := (is_M nested).
Definition N (x : symbol) (S : reading) : Prop := den (V x) (rnode S).

Lemma n_ext x S S' : N x S -> (forall w v cs, S w v cs <-> S' w v cs) -> N x S'.
Proof. intros H E. eapply den_ext; [exact H|now apply rnode_ext]. Qed.
Lemma n_M x S : N x S -> is_M x S.
Proof. apply node_M. Qed.
Lemma n_A x S : N x S -> den (A x) (rnode S).
Proof. apply node_A. Qed.
Lemma n_seal n p x S : not_forced x = true -> is_M x S -> N (seal n p x) S.
Proof. apply seal_V. Qed.
Lemma n_text x L : textual x L -> N x (plain L VStr).
Proof.
  intro T. eapply den_ext; [apply d_text, T|]. intros w ns cs. unfold rtext, rnode, plain. split.
  - intros (H & -> & ->). exists (VStr w). auto.
  - intros (v & (H & -> & ->) & ->). auto.
Qed.
Lemma n_class c x L : textual x L -> N (wrap (class c) x) (plain L (named c)).
Proof. intro T. exact (class_V c T). Qed.
Lemma n_alt x y S1 S2 : N x S1 -> N y S2 -> N (alt x y) (either S1 S2).
Proof.
  intros H1 H2. eapply den_ext; [apply (d_alt H1 H2)|]. intros w ns cs. unfold ralt, rnode, either. split.
  - intros [(v & H & ->)|(v & H & ->)]; eauto.
  - intros (v & [H|H] & ->); eauto.
Qed.
Lemma n_maybe x S d : N x S -> N (maybe x d) (optional S d).
Proof.
  intro H. eapply den_ext; [apply (d_maybe d H)|]. intros w ns cs. unfold ralt, rnode, optional, rnone. split.
  - intros [(v & X & ->)|(-> & -> & ->)]; [eauto|]. exists d. auto.
  - intros (v & [X|(-> & -> & ->)] & ->); eauto.
Qed.
Lemma g_mark x : forallb (fun c => negb (is_alpha c)) (s x) = true -> den (A (skip (lit x))) (gap (fun w cs => w = s x /\ cs = [])).
Proof. intro E. eapply den_ext; [apply (mark_A nested E)|]. intros w ns cs. unfold gap. tauto. Qed.
Lemma g_skip x L : textual x L -> den (A (skip x)) (gap (fun w cs => L w /\ cs = [])).
Proof.
  intros T w ns cs. rewrite (A_skip T). unfold gap. split.
  - intros (H & -> & ->). exists []. auto.
  - intros (c & ((H & ->) & ->) & P). apply Permutation_nil in P. auto.
Qed.
Lemma g_semi : den (A (skip (seq2 (seq2 OWS (lit ";")) OWS))) (gap (fun w cs => (exists a b, ows a /\ ows b /\ w = a ++ 59%N :: b) /\ cs = [])).
Proof. eapply den_ext; [apply semi_den|]. intros w ns cs. unfold gap. split; [intros (a & b & ? & ? & -> & -> & ->)|intros (((a & b & ? & ? & ->) & ->) & ->)]; eauto 8. Qed.

Lemma seq_before G x y S : den (A x) (gap G) -> den (A y) (rnode S) -> den (V (seq2 x y)) (rnode (gap_before G S)).
Proof.
  intros H1 H2. eapply den_ext; [apply (d_seq H1 H2)|]. intros w ns cs. unfold rnode, gap_before. split.
  - intros (w1 & w2 & n1 & n2 & c1 & c2 & -> & -> & -> & [X ->] & (v & Y & ->)). exists v. split; [|reflexivity]. eauto 9.
  - intros (v & (g & u & c1 & c2 & -> & X & Y & ->) & ->). exists g, u, [], (unskip v), c1, c2. repeat split; eauto.
Qed.
Lemma seq_after G x y S : den (A x) (rnode S) -> den (A y) (gap G) -> den (V (seq2 x y)) (rnode (gap_after S G)).
Proof.
  intros H1 H2. eapply den_ext; [apply (d_seq H1 H2)|]. intros w ns cs. unfold rnode, gap_after. split.
  - intros (w1 & w2 & n1 & n2 & c1 & c2 & -> & -> & -> & (v & X & ->) & [Y ->]). exists v. rewrite app_nil_r. split; [|reflexivity]. eauto 9.
  - intros (v & (g & u & c1 & c2 & -> & X & Y & ->) & ->). exists g, u, (unskip v), [], c1, c2. rewrite app_nil_r. repeat split; eauto.
Qed.
Lemma mark_before x m S : forallb (fun c => negb (is_alpha c)) (s m) = true -> den (A x) (rnode S) -> N (seq2 (skip (lit m)) x) (before (s m) S).
Proof.
  intros E H. eapply n_ext; [apply (seq_before (g_mark E) H)|]. intros w v cs. unfold gap_before, before. split.
  - intros (g & u & c1 & c2 & -> & (-> & ->) & X & ->). eauto.
  - intros (u & -> & X). exists (s m), u, [], cs. auto.
Qed.
Lemma mark_after x m S : forallb (fun c => negb (is_alpha c)) (s m) = true -> den (A x) (rnode S) -> N (seq2 x (skip (lit m))) (after S (s m)).
Proof.
  intros E H. eapply n_ext; [apply (seq_after H (g_mark E))|]. intros w v cs. unfold gap_after, after. split.
  - intros (g & u & c1 & c2 & -> & X & (-> & ->) & ->). rewrite app_nil_r. eauto.
  - intros (u & -> & X). exists u, (s m), cs, []. rewrite app_nil_r. auto.
Qed.
Lemma pair_V x y S1 S2 : visible S1 -> visible S2 -> den (A x) (rnode S1) -> den (A y) (rnode S2) ->
  den (V (seq2 x y)) (fun w ns cs => exists v1 v2, ns = [v1; v2] /\ two (fun a b => VTuple [a; b]) S1 S2 w (VTuple [v1; v2]) cs).
Proof.
  intros V1 V2 H1 H2. eapply den_ext; [apply (d_seq H1 H2)|]. intros w ns cs. unfold two. split.
  - intros (w1 & w2 & n1 & n2 & c1 & c2 & -> & -> & -> & (v1 & X & ->) & (v2 & Y & ->)). rewrite (unskip_one (V1 _ _ _ X)), (unskip_one (V2 _ _ _ Y)). exists v1, v2. split; [reflexivity|]. exists w1, w2, v1, v2, c1, c2. auto.
  - intros (v1 & v2 & -> & (w1 & w2 & u1 & u2 & c1 & c2 & -> & X & Y & E & ->)). injection E as -> ->. exists w1, w2, [u1], [u2], c1, c2. split; [reflexivity|]. split; [reflexivity|]. split; [reflexivity|].
    split; [exists u1|exists u2]; (split; [assumption|symmetry; apply unskip_one]); [apply (V1 _ _ _ X)|apply (V2 _ _ _ Y)].
Qed.
Lemma collapse_two a b : a <> VSkip -> b <> VSkip -> collapse [a; b] = VTuple [a; b].
Proof. intros A B. destruct a; try congruence; destruct b; try congruence; reflexivity. Qed.
Lemma two_M x y S1 S2 : visible S1 -> visible S2 -> den (A x) (rnode S1) -> den (A y) (rnode S2) -> is_M (seq2 x y) (two (fun a b => VTuple [a; b]) S1 S2).
Proof.
  intros V1 V2 H1 H2. eapply is_M_ext; [apply (d_M (pair_V V1 V2 H1 H2))|]. intros w v cs. split.
  - intros (ns & (v1 & v2 & -> & X) & ->). pose proof X as (w1 & w2 & u1 & u2 & c1 & c2 & _ & X1 & X2 & E & _). injection E as -> ->. rewrite collapse_two; [exact X|apply (V1 _ _ _ X1)|apply (V2 _ _ _ X2)].
  - intro X. destruct X as (w1 & w2 & v1 & v2 & c1 & c2 & X). exists [v1; v2]. destruct X as (E & X & Y & -> & F). split; [|rewrite collapse_two; [reflexivity|apply (V1 _ _ _ X)|apply (V2 _ _ _ Y)]]. exists v1, v2. split; [reflexivity|]. exists w1, w2, v1, v2, c1, c2. auto.
Qed.
Lemma two_class c x y S1 S2 : visible S1 -> visible S2 -> den (A x) (rnode S1) -> den (A y) (rnode S2) ->
  N (wrap (class c) (seq2 x y)) (two (fun a b => VObj (s c) [a; b]) S1 S2).
Proof.
  intros V1 V2 H1 H2. eapply n_ext; [apply applied_V, (pair_V V1 V2 H1 H2)|]. intros w v cs. unfold applied. split.
  - intros (ns & c' & k & (v1 & v2 & -> & (w1 & w2 & u1 & u2 & c1 & c2 & -> & X & Y & E & ->)) & Q & ->). injection E as -> ->. injection Q as <- <-. rewrite app_nil_r. exists w1, w2, u1, u2, c1, c2. auto.
  - intros (w1 & w2 & v1 & v2 & c1 & c2 & -> & X & Y & -> & ->). exists [v1; v2], (c1 ++ c2), []. rewrite app_nil_r. split; [|split; reflexivity]. exists v1, v2. split; [reflexivity|]. exists w1, w2, v1, v2, c1, c2. auto.
Qed.
(** A function of one value. *)
Lemma n_py F x S (T : reading) : visible S -> N x S ->
  (forall w v cs, T w v cs <-> exists u c k, S w u c /\ call_func pf F [u] = (v, k) /\ cs = c ++ k) -> N (wrap F x) T.
Proof.
  intros VS H E. eapply n_ext; [apply applied_V, H|]. intros w v cs. rewrite E. unfold applied, rnode. split.
  - intros (n & c & k & (u & U & ->) & Q & ->). rewrite (unskip_one (VS _ _ _ U)) in Q. eauto 7.
  - intros (u & c & k & U & Q & ->). exists [u], c, k. split; [|auto]. exists u. split; [exact U|]. symmetry. apply unskip_one, (VS _ _ _ U).
Qed.
Lemma n_int x L : textual x L -> (forall w, L w -> all1 is_digit w) -> N (wrap FInt x) (plain L (fun w => VInt (Z.of_N (decimal w)))).
Proof.
  intros T D w ns cs. rewrite (V_int T D). unfold rnode, plain. split.
  - intros (H & -> & ->). exists []. split; [|constructor]. exists (VInt (Z.of_N (decimal w))). auto.
  - intros (c & (v & (H & -> & ->) & ->) & P). apply Permutation_nil in P. auto.
Qed.
Lemma n_digits : N (wrap FInt (string1 DIGIT)) (plain (all1 is_digit) (fun w => VInt (Z.of_N (decimal w)))).
Proof. apply n_int; [apply digits1_textual|auto]. Qed.
Lemma n_subst v x L : textual x L -> N (wrap (FSubst v) x) (plain L (fun _ => v)).
Proof.
  intro T. eapply den_ext; [apply applied_V, d_text, T|]. apply rnode_ext. intros w u cs. unfold applied, rtext, plain. split.
  - intros (n & c' & k & (Lw & -> & ->) & E & ->). injection E as <- <-. auto.
  - intros (Lw & -> & ->). exists [VStr w], [], []. auto.
Qed.
Lemma same_textual x : textual (literal (s x)) (same_text x).
Proof.
  eapply textual_ext; [apply (@textual_literal rec_rules pf false)|]. intro w. rewrite same_text_lower. generalize (s x) as u. intro u. revert w. induction u as [|c u IH]; intros [|d w]; cbn [map]; split; intro H; try discriminate; try (inversion H; fail); try constructor.
  - inversion H as [|? ? ? ? H1 H2]; subst. apply IH in H2. unfold same_c in H1. congruence.
  - unfold same_c. congruence.
  - apply IH. congruence.
Qed.
Lemma vis_plain L f : (forall w, f w <> VSkip) -> visible (plain L f).
Proof. intros H w v cs (_ & -> & _). apply H. Qed.
Lemma vis_either S1 S2 : visible S1 -> visible S2 -> visible (either S1 S2).
Proof. intros A B w v cs [H|H]; eauto. Qed.
Lemma vis_optional S d : visible S -> d <> VSkip -> visible (optional S d).
Proof. intros A B w v cs [H|(_ & -> & _)]; eauto. Qed.
Lemma vis_before m S : visible S -> visible (before m S).
Proof. intros A w v cs (u & _ & H). eauto. Qed.
Lemma vis_after m S : visible S -> visible (after S m).
Proof. intros A w v cs (u & _ & H). eauto. Qed.
Lemma vis_gb G S : visible S -> visible (gap_before G S).
Proof. intros A w v cs (g & u & c1 & c2 & _ & _ & H & _). eauto. Qed.
Lemma vis_ga G S : visible S -> visible (gap_after S G).
Proof. intros A w v cs (g & u & c1 & c2 & _ & H & _). eauto. Qed.
Lemma vis_two f S1 S2 : (forall a b, f a b <> VSkip) -> visible (two f S1 S2).
Proof. intros A w v cs (w1 & w2 & v1 & v2 & c1 & c2 & _ & _ & _ & -> & _). apply A. Qed.
Lemma vis_word : visible word.
Proof. intros w v cs H. apply word_visible in H. destruct H as [x ->]. discriminate. Qed.
End Kit.
Ltac vis := repeat first [apply vis_either|apply vis_optional|apply vis_before|apply vis_after|apply vis_gb|apply vis_ga|apply vis_word|apply vis_plain; discriminate|apply vis_two; discriminate|discriminate].
(** Take a description apart. *)
Ltac open_ := repeat match goal with
  | H : exists _, _ |- _ => destruct H
  | H : _ /\ _ |- _ => destruct H
  end; subst.
