(** A calculus of relations for the symbols of the HTTP grammar: the relation
    between a string, its values and the complaints, put together along the
    combinators; the complaints are in any order. *)
From Coq Require Import ZifyBool ZifyNat ZifyN Permutation String.
From Verif Require Import Base Earley EarleySpec Parse Grammar GrammarSem GrammarLang GrammarWF GrammarVals GrammarExcl GrammarCalc
  Syntax Actions Reading HttpText SyntaxVals.
Open Scope nat_scope.
Open Scope list_scope.
Unset Strict Implicit.

Definition relation : Type := str -> list val -> list vcomplaint -> Prop.
Definition den (J R : relation) : Prop := forall w ns cs, J w ns cs <-> exists cs', R w ns cs' /\ Permutation cs' cs.
(** Products, alternatives, texts, single values. *)
Definition rseq (R1 R2 : relation) : relation := fun w ns cs =>
  exists w1 w2 n1 n2 c1 c2, w = w1 ++ w2 /\ ns = n1 ++ n2 /\ cs = c1 ++ c2 /\ R1 w1 n1 c1 /\ R2 w2 n2 c2.
Definition ralt (R1 R2 : relation) : relation := fun w ns cs => R1 w ns cs \/ R2 w ns cs.
Definition rtext (L : language) : relation := fun w ns cs => L w /\ ns = [VStr w] /\ cs = [].
Definition rnode (S : str -> val -> list vcomplaint -> Prop) : relation := fun w ns cs => exists v, S w v cs /\ ns = unskip v.
Definition rskip (R : relation) : relation := fun w ns cs => (exists n, R w n cs) /\ ns = [].
Definition rnone (d : val) : relation := fun w ns cs => w = [] /\ ns = unskip d /\ cs = [].
Definition rmany (S : str -> val -> list vcomplaint -> Prop) : relation := fun w ns cs => exists vs, pieces S w vs cs /\ ns = [VList vs].

Section Den.
Variable nested : pyf -> list val -> val * list vcomplaint.
Notation pf := (pyfun nested).
Notation textual := (textual rec_rules pf).
Notation M := (M rec_rules pf).
Notation V := (V rec_rules pf).
Notation A := (A rec_rules pf).
Notation call_func := (call_func pf).

Definition is_M (x : symbol) (S : str -> val -> list vcomplaint -> Prop) : Prop :=
  forall w v cs, M x w v cs <-> exists cs', S w v cs' /\ Permutation cs' cs.
Definition rwrap (F : func) (R : relation) : relation := fun w ns cs =>
  exists n c v k, R w n c /\ call_func F n = (v, k) /\ ns = unskip v /\ cs = c ++ k.

Lemma d_seq x y R1 R2 : den (A x) R1 -> den (A y) R2 -> den (V (seq2 x y)) (rseq R1 R2).
Proof.
  intros H1 H2 w ns cs. rewrite V_seq. split.
  - intros (w1 & w2 & n1 & n2 & c1 & c2 & -> & -> & P & X & Y). apply H1 in X. apply H2 in Y. destruct X as [d1 [X P1]], Y as [d2 [Y P2]].
    exists (d1 ++ d2). split; [exists w1, w2, n1, n2, d1, d2; auto|]. now rewrite P1, P2.
  - intros (cs' & (w1 & w2 & n1 & n2 & c1 & c2 & -> & -> & -> & X & Y) & P). exists w1, w2, n1, n2, c1, c2.
    split; [reflexivity|]. split; [reflexivity|]. split; [exact P|]. split; [apply H1|apply H2]; eauto.
Qed.
Lemma d_alt x y R1 R2 : den (V x) R1 -> den (V y) R2 -> den (V (alt x y)) (ralt R1 R2).
Proof.
  intros H1 H2 w ns cs. rewrite V_alt, (H1 w ns cs), (H2 w ns cs). unfold ralt. split.
  - intros [[c [H P]]|[c [H P]]]; exists c; auto.
  - intros [c [[H|H] P]]; eauto.
Qed.
Lemma d_wrap F x R : den (V x) R -> den (V (wrap F x)) (rwrap F R).
Proof.
  intros H w ns cs. rewrite V_wrap. split.
  - intros (n & c & v & c' & X & Y & -> & P). apply H in X. destruct X as [d [X Q]]. exists (d ++ c'). split; [exists n, d, v, c'; auto|]. now rewrite Q.
  - intros (cs' & (n & c & v & k & X & Y & -> & ->) & P). exists n, c, v, k. repeat split; auto. apply H. eauto.
Qed.
Lemma d_skip x R : den (V x) R -> den (V (skip x)) (rskip R).
Proof.
  intros H w ns cs. rewrite V_skip. split.
  - intros [[n X] ->]. apply H in X. destruct X as [d [X P]]. exists d. split; [split; eauto|exact P].
  - intros [c [[[n X] ->] P]]. split; [|reflexivity]. exists n. apply H. eauto.
Qed.
Lemma d_maybe x d R : den (V x) R -> den (V (maybe x d)) (ralt R (rnone d)).
Proof.
  intros H w ns cs. rewrite V_maybe, (H w ns cs). split.
  - intros [[c [X P]]|[-> [-> ->]]]; [exists c; split; [now left|exact P]|]. exists []. split; [right; unfold rnone; auto|constructor].
  - intros [c [[X|[-> [-> ->]]] P]]; [left; eauto|right]. apply Permutation_nil in P. auto.
Qed.
Lemma d_text x L : textual x L -> den (V x) (rtext L).
Proof.
  intros T w ns cs. rewrite (V_text T). unfold rtext. split.
  - intros [H [-> ->]]. exists []. auto.
  - intros [c [[H [-> ->]] P]]. apply Permutation_nil in P. auto.
Qed.
Lemma d_textA x L : textual x L -> den (A x) (rtext L).
Proof.
  intros T w ns cs. rewrite (A_text T). unfold rtext. split.
  - intros [H [-> ->]]. exists []. auto.
  - intros [c [[H [-> ->]] P]]. apply Permutation_nil in P. auto.
Qed.
Lemma d_eph x R : eph1 x = true -> den (V x) R -> den (A x) R.
Proof. intros E H w ns cs. rewrite A_eph by exact E. apply H. Qed.
Lemma d_M x R : den (V x) R -> is_M x (fun w v cs => exists ns, R w ns cs /\ v = collapse ns).
Proof.
  intros H w v cs. rewrite M_V. split.
  - intros [ns [X ->]]. apply H in X. destruct X as [c [X P]]. exists c. split; [eauto|exact P].
  - intros [c [[ns [X ->]] P]]. exists ns. split; [|reflexivity]. apply H. eauto.
Qed.
Lemma d_nodeA x S : eph1 x = false -> is_M x S -> den (A x) (rnode S).
Proof.
  intros E H w ns cs. rewrite A_node by exact E. split.
  - intros [v [X ->]]. apply H in X. destruct X as [c [X P]]. exists c. split; [exists v; auto|exact P].
  - intros [c [[v [X ->]] P]]. exists v. split; [|reflexivity]. apply H. eauto.
Qed.
Lemma d_nodeV x S : eph x = false -> is_M x S -> den (V x) (rnode S).
Proof.
  intros E H w ns cs. rewrite V_node by exact E. split.
  - intros [v [X ->]]. apply H in X. destruct X as [c [X P]]. exists c. split; [exists v; auto|exact P].
  - intros [c [[v [X ->]] P]]. exists v. split; [|reflexivity]. apply H. eauto.
Qed.
(** A choice, or whatever else is not inlined in a product. *)
Lemma d_closed x R : eph1 x = false -> den (V x) R -> den (A x) (rnode (fun w v cs => exists ns, R w ns cs /\ v = collapse ns)).
Proof. intros E H. apply d_nodeA; [exact E|]. now apply d_M. Qed.
Lemma d_seal n p x S : is_M x S -> is_M (seal n p x) S.
Proof. intros H w v cs. rewrite M_seal. apply H. Qed.
Lemma d_group x S : is_M x S -> is_M (group x) S.
Proof. intros H w v cs. rewrite M_group. apply H. Qed.
Lemma pieces_perm x S : is_M x S -> forall w vs cs, (exists c, pieces (M x) w vs c /\ Permutation c cs) <-> exists c, pieces S w vs c /\ Permutation c cs.
Proof.
  intro H.
  assert (I : forall w vs c, pieces (M x) w vs c -> exists d, pieces S w vs d /\ Permutation d c).
  { intros w vs c X. induction X as [|w ws v vs c css X _ [d [Y P]]]; [exists []; split; constructor|]. apply H in X. destruct X as [e [X Q]].
    exists (e ++ d). split; [constructor; auto|]. now rewrite Q, P. }
  intros w vs cs. split.
  - intros [c [X P]]. apply I in X. destruct X as [d [X Q]]. exists d. split; [exact X|]. now rewrite Q.
  - intros [c [X P]]. exists c. split; [|exact P]. clear P. induction X as [|w ws v vs c css X _ IH]; [constructor|]. constructor; [|exact IH]. apply H. eauto.
Qed.
Lemma d_many x S : is_M x S -> den (V (many x)) (rmany S).
Proof.
  intros H w ns cs. rewrite V_many. split.
  - intros (vs & c & X & -> & P). assert (Y : exists c, pieces (M x) w vs c /\ Permutation c cs) by eauto. apply (pieces_perm H) in Y. destruct Y as [d [Y Q]].
    exists d. split; [exists vs; auto|exact Q].
  - intros [c [[vs [X ->]] P]]. assert (Y : exists c, pieces S w vs c /\ Permutation c cs) by eauto. apply (pieces_perm H) in Y. destruct Y as [d [Y Q]]. eauto 6.
Qed.
Lemma d_manyA x S : is_M x S -> den (A (many x)) (rmany S).
Proof.
  intros H w ns cs. rewrite A_many. split.
  - intros (vs & c & X & -> & P). assert (Y : exists c, pieces (M x) w vs c /\ Permutation c cs) by eauto. apply (pieces_perm H) in Y. destruct Y as [d [Y Q]].
    exists d. split; [exists vs; auto|exact Q].
  - intros [c [[vs [X ->]] P]]. assert (Y : exists c, pieces S w vs c /\ Permutation c cs) by eauto. apply (pieces_perm H) in Y. destruct Y as [d [Y Q]]. eauto 6.
Qed.
(** A change of the description. *)
Lemma den_ext J R R' : den J R -> (forall w ns cs, R w ns cs <-> R' w ns cs) -> den J R'.
Proof. intros H E w ns cs. rewrite (H w ns cs). split; intros [c [X P]]; exists c; (split; [now apply E|exact P]). Qed.
Lemma is_M_ext x S S' : is_M x S -> (forall w v cs, S w v cs <-> S' w v cs) -> is_M x S'.
Proof. intros H E w v cs. rewrite (H w v cs). split; intros [c [X P]]; exists c; (split; [now apply E|exact P]). Qed.
Lemma is_M_weak x S S' : is_M x S -> (forall w v cs, S w v cs -> exists cs', S' w v cs' /\ Permutation cs' cs) -> (forall w v cs, S' w v cs -> exists cs', S w v cs' /\ Permutation cs' cs) -> is_M x S'.
Proof.
  intros H E F w v cs. rewrite (H w v cs). split; intros [c [X P]]; [apply E in X|apply F in X]; destruct X as [d [X Q]]; exists d; (split; [exact X|]); now rewrite Q.
Qed.
Lemma M_is x S : is_M x S -> forall w v cs, S w v cs -> M x w v cs.
Proof. intros H w v cs X. apply H. eauto. Qed.
End Den.
