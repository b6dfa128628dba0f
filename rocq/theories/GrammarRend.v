(** Symbols described by how their strings are written: each string that a
    symbol reads is written from some data, which also give the values and the
    complaints. *)
From Coq Require Import ZifyBool ZifyNat ZifyN Permutation.
From Verif Require Import Base Earley EarleySpec EarleyChart EarleyMain Grammar GrammarSem GrammarLang GrammarWF GrammarVals GrammarCalc.
Open Scope nat_scope.
Unset Strict Implicit.

(** [R] holds exactly for what is written from some [a] with [Q a]: the
    string [f a], the values [g a], the complaints [h a] in some order. *)
Definition written {T} (R : str -> list val -> list vcomplaint -> Prop) (Q : T -> Prop) (f : T -> str) (g : T -> list val)
  (h : T -> list vcomplaint) : Prop :=
  forall w ns cs, R w ns cs <-> exists a, Q a /\ w = f a /\ ns = g a /\ Permutation (h a) cs.

Lemma written_ext {T} R (Q Q' : T -> Prop) f f' g g' h h' : written R Q f g h ->
  (forall a, Q a <-> Q' a) -> (forall a, Q a -> f a = f' a) -> (forall a, Q a -> g a = g' a) -> (forall a, Q a -> Permutation (h a) (h' a)) ->
  written R Q' f' g' h'.
Proof.
  intros H EQ Ef Eg Eh w ns cs. rewrite (H w ns cs). split; intros [a [q [-> [-> P]]]]; exists a.
  - repeat split; auto; [now apply EQ|]. now rewrite <- (Eh a q).
  - apply EQ in q. rewrite Ef, Eg by exact q. repeat split; auto. now rewrite (Eh a q).
Qed.

(** A change of data. *)
Lemma written_map {T U} R (Q : T -> Prop) f g h (Q' : U -> Prop) f' g' h' (i : T -> U) : written R Q f g h ->
  (forall a, Q a -> Q' (i a) /\ f' (i a) = f a /\ g' (i a) = g a /\ h' (i a) = h a) ->
  (forall b, Q' b -> exists a, Q a /\ i a = b) ->
  written R Q' f' g' h'.
Proof.
  intros H I S w ns cs. rewrite (H w ns cs). split.
  - intros [a [q [-> [-> P]]]]. destruct (I a q) as [q' [<- [<- E]]]. exists (i a). repeat split; auto. now rewrite E.
  - intros [b [q [-> [-> P]]]]. destruct (S b q) as [a [q' <-]]. destruct (I a q') as [_ [-> [-> E]]]. exists a. repeat split; auto. now rewrite <- E.
Qed.

Section Rend.
Variable rec_rules : str -> list rule.
Variable pyfun : pyf -> list val -> val * list vcomplaint.
Notation textual := (textual rec_rules pyfun).
Notation M := (M rec_rules pyfun).
Notation V := (V rec_rules pyfun).
Notation A := (A rec_rules pyfun).
Notation call_func := (call_func pyfun).

Lemma w_text x L : textual x L -> written (V x) L (fun w => w) (fun w => [VStr w]) (fun _ => []).
Proof.
  intros T w ns cs. rewrite (V_text T). split.
  - intros [H [-> ->]]. exists w. auto.
  - intros [a [H [-> [-> P]]]]. apply Permutation_nil in P. auto.
Qed.
Lemma wa_text x L : textual x L -> written (A x) L (fun w => w) (fun w => [VStr w]) (fun _ => []).
Proof.
  intros T w ns cs. rewrite (A_text T). split.
  - intros [H [-> ->]]. exists w. auto.
  - intros [a [H [-> [-> P]]]]. apply Permutation_nil in P. auto.
Qed.

Lemma w_empty : written (V empty) (fun _ : unit => True) (fun _ => []) (fun _ => []) (fun _ => []).
Proof.
  intros w ns cs. rewrite V_empty. split.
  - intros [-> [-> ->]]. exists tt. auto.
  - intros [_ [_ [-> [-> P]]]]. apply Permutation_nil in P. auto.
Qed.

Lemma w_seq {T U} x y (Q1 : T -> Prop) f1 g1 h1 (Q2 : U -> Prop) f2 g2 h2 :
  written (A x) Q1 f1 g1 h1 -> written (A y) Q2 f2 g2 h2 ->
  written (V (seq2 x y)) (fun p => Q1 (fst p) /\ Q2 (snd p)) (fun p => f1 (fst p) ++ f2 (snd p)) (fun p => g1 (fst p) ++ g2 (snd p))
          (fun p => h1 (fst p) ++ h2 (snd p)).
Proof.
  intros H1 H2 w ns cs. rewrite V_seq. split.
  - intros [w1 [w2 [n1 [n2 [c1 [c2 [-> [-> [P [X Y]]]]]]]]]]. apply H1 in X. apply H2 in Y.
    destruct X as [a [q1 [-> [-> P1]]]]. destruct Y as [b [q2 [-> [-> P2]]]]. exists (a, b). cbn. repeat split; auto. now rewrite P1, P2.
  - intros [[a b] [[q1 q2] [-> [-> P]]]]. cbn in *. exists (f1 a), (f2 b), (g1 a), (g2 b), (h1 a), (h2 b).
    split; [reflexivity|]. split; [reflexivity|]. split; [exact P|]. split; [apply H1|apply H2]; eauto.
Qed.

Lemma w_alt {T U} x y (Q1 : T -> Prop) f1 g1 h1 (Q2 : U -> Prop) f2 g2 h2 :
  written (V x) Q1 f1 g1 h1 -> written (V y) Q2 f2 g2 h2 ->
  written (V (alt x y)) (fun p => match p with inl a => Q1 a | inr b => Q2 b end) (fun p => match p with inl a => f1 a | inr b => f2 b end)
          (fun p => match p with inl a => g1 a | inr b => g2 b end) (fun p => match p with inl a => h1 a | inr b => h2 b end).
Proof.
  intros H1 H2 w ns cs. rewrite V_alt, (H1 w ns cs), (H2 w ns cs). split.
  - intros [[a X]|[b X]]; [exists (inl a)|exists (inr b)]; exact X.
  - intros [[a|b] X]; eauto.
Qed.

Lemma w_wrap {T} F x (Q : T -> Prop) f g h (r : T -> val) (k : T -> list vcomplaint) :
  written (V x) Q f g h -> (forall a, Q a -> call_func F (g a) = (r a, k a)) ->
  written (V (wrap F x)) Q f (fun a => unskip (r a)) (fun a => h a ++ k a).
Proof.
  intros H E w ns cs. rewrite V_wrap. split.
  - intros [n [c [v [c' [X [Y [-> P]]]]]]]. apply H in X. destruct X as [a [q [-> [-> P1]]]]. rewrite (E a q) in Y. injection Y as <- <-.
    exists a. repeat split; auto. now rewrite P1.
  - intros [a [q [-> [-> P]]]]. exists (g a), (h a), (r a), (k a). repeat split; auto. apply H. exists a. auto.
Qed.

(** Wrapped by a function that gives no complaint and is not skipped. *)
Lemma w_wrap1 {T} F x (Q : T -> Prop) f g h (r : T -> val) :
  written (V x) Q f g h -> (forall a, Q a -> call_func F (g a) = (r a, []) /\ r a <> VSkip) ->
  written (V (wrap F x)) Q f (fun a => [r a]) h.
Proof.
  intros H E. eapply written_ext; [apply (w_wrap H (r:=r) (k:=fun _ => []))| | | |]; auto.
  - intros a q. now apply E.
  - tauto.
  - intros a q. destruct (E a q) as [_ N]. destruct (r a); congruence || reflexivity.
  - intros a q. cbn beta. rewrite app_nil_r. apply Permutation_refl.
Qed.

Lemma w_skip {T} x (Q : T -> Prop) f g h : written (V x) Q f g h -> written (V (skip x)) Q f (fun _ => []) h.
Proof.
  intros H w ns cs. rewrite V_skip. split.
  - intros [[n X] ->]. apply H in X. destruct X as [a [q [-> [_ P]]]]. exists a. auto.
  - intros [a [q [-> [-> P]]]]. split; [|reflexivity]. exists (g a). apply H. exists a. auto.
Qed.

Lemma w_subst {T} v x (Q : T -> Prop) f g h : v <> VSkip -> written (V x) Q f g h -> written (V (wrap (FSubst v) x)) Q f (fun _ => [v]) h.
Proof.
  intros N H. eapply (w_wrap1 (r:=fun _ => v)); [exact H|]. intros a q. split; [reflexivity|exact N].
Qed.

(** In a product.  [one_node]: the symbol is a node of its own, and not
    skipped. *)
Lemma wa_eph {T} x (Q : T -> Prop) f g h : eph1 x = true -> written (V x) Q f g h -> written (A x) Q f g h.
Proof. intros E H w ns cs. rewrite A_eph by exact E. apply H. Qed.

Lemma w_M {T} x (Q : T -> Prop) f (v : T -> val) h : written (V x) Q f (fun a => unskip (v a)) h ->
  forall w v' cs, M x w v' cs <-> exists a, Q a /\ w = f a /\ v' = v a /\ Permutation (h a) cs.
Proof.
  intros H w v' cs. rewrite M_V.
  assert (C : forall a, collapse (unskip (v a)) = v a) by (intro a; now destruct (v a)).
  split.
  - intros [ns [X ->]]. apply H in X. destruct X as [a [q [-> [-> P]]]]. exists a. rewrite C. auto.
  - intros [a [q [-> [-> P]]]]. exists (unskip (v a)). rewrite C. split; [|reflexivity]. apply H. exists a. auto.
Qed.

(** A sealed symbol as a node. *)
Lemma w_seal {T} n p x (Q : T -> Prop) f (v : T -> val) h : not_forced x = true ->
  (forall w v' cs, M x w v' cs <-> exists a, Q a /\ w = f a /\ v' = v a /\ Permutation (h a) cs) ->
  written (V (seal n p x)) Q f (fun a => unskip (v a)) h.
Proof.
  intros NF H w ns cs. rewrite V_node by (now apply eph_seal). split.
  - intros [v' [X ->]]. apply M_seal, H in X. destruct X as [a [q [-> [-> P]]]]. exists a. auto.
  - intros [a [q [-> [-> P]]]]. exists (v a). split; [|reflexivity]. apply M_seal, H. exists a. auto.
Qed.
Lemma wa_seal {T} n p x (Q : T -> Prop) f (v : T -> val) h : not_forced x = true ->
  (forall w v' cs, M x w v' cs <-> exists a, Q a /\ w = f a /\ v' = v a /\ Permutation (h a) cs) ->
  written (A (seal n p x)) Q f (fun a => unskip (v a)) h.
Proof.
  intros NF H w ns cs. rewrite A_node by (apply eph1_eph; now apply eph_seal). split.
  - intros [v' [X ->]]. apply M_seal, H in X. destruct X as [a [q [-> [-> P]]]]. exists a. auto.
  - intros [a [q [-> [-> P]]]]. exists (v a). split; [|reflexivity]. apply M_seal, H. exists a. auto.
Qed.
(** Any symbol that is not ephemeral. *)
Lemma w_node {T} x (Q : T -> Prop) f (v : T -> val) h : eph x = false ->
  (forall w v' cs, M x w v' cs <-> exists a, Q a /\ w = f a /\ v' = v a /\ Permutation (h a) cs) ->
  written (V x) Q f (fun a => unskip (v a)) h.
Proof.
  intros E H w ns cs. rewrite V_node by exact E. split.
  - intros [v' [X ->]]. apply H in X. destruct X as [a [q [-> [-> P]]]]. exists a. auto.
  - intros [a [q [-> [-> P]]]]. exists (v a). split; [|reflexivity]. apply H. exists a. auto.
Qed.
Lemma wa_node {T} x (Q : T -> Prop) f (v : T -> val) h : eph1 x = false ->
  (forall w v' cs, M x w v' cs <-> exists a, Q a /\ w = f a /\ v' = v a /\ Permutation (h a) cs) ->
  written (A x) Q f (fun a => unskip (v a)) h.
Proof.
  intros E H w ns cs. rewrite A_node by exact E. split.
  - intros [v' [X ->]]. apply H in X. destruct X as [a [q [-> [-> P]]]]. exists a. auto.
  - intros [a [q [-> [-> P]]]]. exists (v a). split; [|reflexivity]. apply H. exists a. auto.
Qed.

Lemma w_maybe {T} x d (Q : T -> Prop) f g h : written (V x) Q f g h ->
  written (V (maybe x d)) (fun o => match o with Some a => Q a | None => True end) (fun o => match o with Some a => f a | None => [] end)
    (fun o => match o with Some a => g a | None => unskip d end) (fun o => match o with Some a => h a | None => [] end).
Proof.
  intros H w ns cs. rewrite V_maybe, (H w ns cs). split.
  - intros [[a X]|[-> [-> ->]]]; [exists (Some a); exact X|exists None; auto].
  - intros [[a|] X]; [left; eauto|right]. destruct X as [_ [-> [-> P]]]. apply Permutation_nil in P. auto.
Qed.

(** Repetition. *)
Lemma w_pieces {T} (R : str -> val -> list vcomplaint -> Prop) (Q : T -> Prop) f (v : T -> val) h :
  (forall w v' cs, R w v' cs <-> exists a, Q a /\ w = f a /\ v' = v a /\ Permutation (h a) cs) ->
  forall w vs cs, (exists cs', pieces R w vs cs' /\ Permutation cs' cs) <->
    exists l, Forall Q l /\ w = flat_map f l /\ vs = map v l /\ Permutation (flat_map h l) cs.
Proof.
  intros H w vs cs. split.
  - intros [cs' [X P]].
    assert (Y : exists l, Forall Q l /\ w = flat_map f l /\ vs = map v l /\ Permutation (flat_map h l) cs').
    { clear P. induction X as [|w ws v0 vs c css X _ [l [F [-> [-> P]]]]]; [exists []; repeat split; constructor|].
      apply H in X. destruct X as [a [q [-> [-> P']]]]. exists (a :: l). repeat split; auto. cbn. now rewrite P', P. }
    destruct Y as [l [F [-> [-> P']]]]. exists l. repeat split; auto. now rewrite P'.
  - intros [l [F [-> [-> P]]]]. exists (flat_map h l). split; [|exact P]. clear P.
    induction F as [|a l q F IH]; [constructor|]. cbn. constructor; [|exact IH]. apply H. exists a. auto.
Qed.

Lemma wa_many {T} x (Q : T -> Prop) f (v : T -> val) h :
  (forall w v' cs, M x w v' cs <-> exists a, Q a /\ w = f a /\ v' = v a /\ Permutation (h a) cs) ->
  written (A (many x)) (Forall Q) (flat_map f) (fun l => [VList (map v l)]) (flat_map h).
Proof.
  intros H w ns cs. rewrite A_many. split.
  - intros [vs [cs' [X [-> P]]]]. assert (Y : exists cs', pieces (M x) w vs cs' /\ Permutation cs' cs) by eauto.
    apply (w_pieces H) in Y. destruct Y as [l [F [-> [-> P']]]]. exists l. auto.
  - intros [l [F [-> [-> P]]]]. assert (Y : exists l', Forall Q l' /\ flat_map f l = flat_map f l' /\ map v l = map v l' /\ Permutation (flat_map h l') cs) by eauto.
    apply (w_pieces H) in Y. destruct Y as [cs' [X P']]. exists (map v l), cs'. auto.
Qed.
Lemma w_many {T} x (Q : T -> Prop) f (v : T -> val) h :
  (forall w v' cs, M x w v' cs <-> exists a, Q a /\ w = f a /\ v' = v a /\ Permutation (h a) cs) ->
  written (V (many x)) (Forall Q) (flat_map f) (fun l => [VList (map v l)]) (flat_map h).
Proof.
  intros H w ns cs. rewrite V_many. split.
  - intros [vs [cs' [X [-> P]]]]. assert (Y : exists cs', pieces (M x) w vs cs' /\ Permutation cs' cs) by eauto.
    apply (w_pieces H) in Y. destruct Y as [l [F [-> [-> P']]]]. exists l. auto.
  - intros [l [F [-> [-> P]]]]. assert (Y : exists l', Forall Q l' /\ flat_map f l = flat_map f l' /\ map v l = map v l' /\ Permutation (flat_map h l') cs) by eauto.
    apply (w_pieces H) in Y. destruct Y as [cs' [X P']]. exists (map v l), cs'. auto.
Qed.

End Rend.
