(** A calculus of values: what a symbol contributes where it is used, with
    skipped parts left out and the complaints in any order. *)
From Coq Require Import ZifyBool ZifyNat ZifyN Permutation.
From Verif Require Import Base Earley EarleySpec EarleyChart EarleyMain Grammar GrammarSem GrammarLang GrammarWF GrammarVals.
Open Scope nat_scope.
Unset Strict Implicit.

Section Calc.
Variable rec_rules : str -> list rule.
Variable pyfun : pyf -> list val -> val * list vcomplaint.
Notation means := (means rec_rules pyfun).
Notation many_means := (many_means rec_rules pyfun).
Notation nmeans := (nmeans rec_rules pyfun).
Notation ameans := (ameans rec_rules pyfun).
Notation textual := (textual rec_rules pyfun).
Notation call_func := (call_func pyfun).

(** As one node; as an alternative; as a factor of a product. *)
Definition M (x : symbol) w v cs : Prop := exists cs', means x w v cs' /\ Permutation cs' cs.
Definition V (x : symbol) w ns cs : Prop :=
  exists nodes kc ac, nmeans x w nodes kc ac /\ nonskip nodes = ns /\ Permutation (kc ++ ac) cs.
Definition A (x : symbol) w ns cs : Prop :=
  exists nodes kc ac, ameans x w nodes kc ac /\ nonskip nodes = ns /\ Permutation (kc ++ ac) cs.

Lemma perm_swap4 {T} (a b c d : list T) : Permutation ((a ++ b) ++ c ++ d) ((a ++ c) ++ b ++ d).
Proof.
  rewrite <- !app_assoc. apply Permutation_app_head. rewrite !app_assoc. apply Permutation_app_tail. apply Permutation_app_comm.
Qed.

Lemma nonskip_app a b : nonskip (a ++ b) = nonskip a ++ nonskip b.
Proof. apply filter_app. Qed.
Lemma nonskip_one v : nonskip [v] = unskip v.
Proof. unfold nonskip, unskip. cbn. now destruct (is_vskip v). Qed.
Lemma nonskip_unskip v : nonskip (unskip v) = unskip v.
Proof. now destruct v. Qed.
Lemma nonskip_idem a : nonskip (nonskip a) = nonskip a.
Proof. unfold nonskip. induction a as [|v a IH]; [reflexivity|]. cbn. destruct (is_vskip v) eqn:E; cbn; [exact IH|]. rewrite E. cbn. now rewrite IH. Qed.
Lemma collapse_nonskip a : collapse a = collapse (nonskip a).
Proof. unfold collapse. change (filter (fun v => negb (is_vskip v))) with nonskip. now rewrite nonskip_idem. Qed.

Lemma V_perm x w ns cs cs' : V x w ns cs -> Permutation cs cs' -> V x w ns cs'.
Proof. intros [n [k [a [H [E P]]]]] Q. exists n, k, a. repeat split; auto. now rewrite P. Qed.
Lemma A_perm x w ns cs cs' : A x w ns cs -> Permutation cs cs' -> A x w ns cs'.
Proof. intros [n [k [a [H [E P]]]]] Q. exists n, k, a. repeat split; auto. now rewrite P. Qed.
Lemma M_perm x w v cs cs' : M x w v cs -> Permutation cs cs' -> M x w v cs'.
Proof. intros [c [H P]] Q. exists c. split; auto. now rewrite P. Qed.

Lemma M_V x w v cs : M x w v cs <-> exists ns, V x w ns cs /\ v = collapse ns.
Proof.
  split.
  - intros [cs' [H P]]. apply means_nm in H. destruct H as [n [k [a [H [-> ->]]]]]. exists (nonskip n).
    rewrite <- collapse_nonskip. split; [exists n, k, a; auto|reflexivity].
  - intros [ns [[n [k [a [H [<- P]]]]] ->]]. exists (k ++ a). split; [|exact P]. apply means_nm. exists n, k, a.
    rewrite <- collapse_nonskip. auto.
Qed.

Lemma A_eph x : eph1 x = true -> forall w ns cs, A x w ns cs <-> V x w ns cs.
Proof.
  intros E w ns cs. split; intros [n [k [a [H R]]]]; exists n, k, a; (split; [|exact R]); now apply am_eph.
Qed.
Lemma A_node x : eph1 x = false -> forall w ns cs, A x w ns cs <-> exists v, M x w v cs /\ ns = unskip v.
Proof.
  intros E w ns cs. split.
  - intros [n [k [a [H [<- P]]]]]. rewrite am_node in H by exact E. destruct H as [v [H [-> ->]]]. rewrite app_nil_r in P.
    exists v. split; [exists k; auto|apply nonskip_one].
  - intros [v [[cs' [H P]] ->]]. exists [v], cs', []. rewrite am_node by exact E. rewrite app_nil_r. repeat split; auto.
    + eauto.
    + apply nonskip_one.
Qed.
Lemma V_node x : eph x = false -> forall w ns cs, V x w ns cs <-> exists v, M x w v cs /\ ns = unskip v.
Proof.
  intros E w ns cs. split.
  - intros [n [k [a [H [<- P]]]]]. rewrite nm_node in H by exact E. destruct H as [v [H [-> ->]]]. rewrite app_nil_r in P.
    exists v. split; [exists k; auto|apply nonskip_one].
  - intros [v [[cs' [H P]] ->]]. exists [v], cs', []. rewrite nm_node by exact E. rewrite app_nil_r. repeat split; auto.
    + eauto.
    + apply nonskip_one.
Qed.
Lemma eph1_eph x : eph x = false -> eph1 x = false.
Proof. destruct x as [|i [|r [|]]| |]; cbn; auto. Qed.

Lemma V_seq x y w ns cs : V (seq2 x y) w ns cs <->
  exists w1 w2 n1 n2 c1 c2, w = w1 ++ w2 /\ ns = n1 ++ n2 /\ Permutation (c1 ++ c2) cs /\ A x w1 n1 c1 /\ A y w2 n2 c2.
Proof.
  split.
  - intros [n [k [a [H [<- P]]]]]. apply nm_seq in H.
    destruct H as [w1 [w2 [n1 [n2 [k1 [k2 [a1 [a2 [-> [-> [-> [-> [H1 H2]]]]]]]]]]]]].
    exists w1, w2, (nonskip n1), (nonskip n2), (k1 ++ a1), (k2 ++ a2). rewrite nonskip_app. repeat split.
    + rewrite <- P. apply perm_swap4.
    + exists n1, k1, a1. auto.
    + exists n2, k2, a2. auto.
  - intros [w1 [w2 [n1 [n2 [c1 [c2 [-> [-> [P [[m1 [k1 [a1 [H1 [<- P1]]]]] [m2 [k2 [a2 [H2 [<- P2]]]]]]]]]]]]]]].
    exists (m1 ++ m2), (k1 ++ k2), (a1 ++ a2). rewrite nonskip_app. repeat split.
    + apply nm_seq. exists w1, w2, m1, m2, k1, k2, a1, a2. auto 8.
    + rewrite <- P, <- P1, <- P2. apply perm_swap4.
Qed.

Lemma V_alt x y w ns cs : V (alt x y) w ns cs <-> V x w ns cs \/ V y w ns cs.
Proof.
  split.
  - intros [n [k [a [H R]]]]. apply nm_alt in H. destruct H; [left|right]; exists n, k, a; auto.
  - intros [[n [k [a [H R]]]]|[n [k [a [H R]]]]]; exists n, k, a; (split; [apply nm_alt; auto|exact R]).
Qed.

Lemma V_wrap f x w ns cs : V (wrap f x) w ns cs <->
  exists n c v c', V x w n c /\ call_func f n = (v, c') /\ ns = unskip v /\ Permutation (c ++ c') cs.
Proof.
  destruct (is_class f) eqn:C.
  - rewrite V_node by (destruct f; try discriminate; reflexivity). split.
    + intros [v [[cs' [H P]] ->]]. apply means_wrap in H. destruct H as [n [k [a [c [H [E ->]]]]]].
      exists (nonskip n), (k ++ a), v, c. repeat split; auto; [exists n, k, a; auto|]. now rewrite <- app_assoc.
    + intros [n [c [v [c' [[m [k [a [H [<- P]]]]] [E [-> Q]]]]]]]. exists v. split; [|reflexivity].
      exists (k ++ a ++ c'). split; [apply means_wrap; exists m, k, a, c'; auto|]. rewrite <- Q, <- P. now rewrite app_assoc.
  - split.
    + intros [n [k [a [H [<- P]]]]]. apply nm_wrap in H; [|exact C]. destruct H as [m [a0 [v [c [H [E [-> ->]]]]]]].
      exists (nonskip m), (k ++ a0), v, c. rewrite nonskip_unskip. repeat split; auto; [exists m, k, a0; auto|]. rewrite <- P. now rewrite app_assoc.
    + intros [n [c [v [c' [[m [k [a [H [<- P]]]]] [E [-> Q]]]]]]]. exists (unskip v), k, (a ++ c'). rewrite nonskip_unskip. repeat split.
      * apply nm_wrap; [exact C|]. exists m, a, v, c'. auto.
      * rewrite <- Q, <- P. now rewrite app_assoc.
Qed.

Lemma V_text x L : textual x L -> forall w ns cs, V x w ns cs <-> L w /\ ns = [VStr w] /\ cs = [].
Proof.
  intros T w ns cs. split.
  - intros [n [k [a [H [<- P]]]]]. apply T in H. destruct H as [H [-> [-> ->]]]. apply Permutation_nil in P. auto.
  - intros [H [-> ->]]. exists [VStr w], [], []. repeat split; [|constructor]. apply T. auto.
Qed.
Lemma A_text x L : textual x L -> forall w ns cs, A x w ns cs <-> L w /\ ns = [VStr w] /\ cs = [].
Proof.
  intros T w ns cs. split.
  - intros [n [k [a [H [<- P]]]]]. apply (textual_am T) in H. destruct H as [H [-> [-> ->]]]. apply Permutation_nil in P. auto.
  - intros [H [-> ->]]. exists [VStr w], [], []. repeat split; [|constructor]. apply (textual_am T). auto.
Qed.
Lemma M_text x L : textual x L -> forall w v cs, M x w v cs <-> L w /\ v = VStr w /\ cs = [].
Proof.
  intros T w v cs. split.
  - intros [c [H P]]. apply (textual_means T) in H. destruct H as [H [-> ->]]. apply Permutation_nil in P. auto.
  - intros [H [-> ->]]. exists []. split; [|constructor]. apply (textual_means T). auto.
Qed.

Lemma V_empty w ns cs : V empty w ns cs <-> w = [] /\ ns = [] /\ cs = [].
Proof.
  split.
  - intros [n [k [a [H [<- P]]]]]. apply nm_empty in H. destruct H as [-> [-> [-> ->]]]. apply Permutation_nil in P. auto.
  - intros [-> [-> ->]]. exists [], [], []. rewrite nm_empty. repeat split. constructor.
Qed.

Lemma V_subst v x w ns cs : V (wrap (FSubst v) x) w ns cs <-> (exists n, V x w n cs) /\ ns = unskip v.
Proof.
  rewrite V_wrap. split.
  - intros [n [c [v' [c' [H [E [-> P]]]]]]]. cbn in E. injection E as <- <-. rewrite app_nil_r in P.
    split; [|reflexivity]. exists n. eapply V_perm; eauto.
  - intros [[n H] ->]. exists n, cs, v, []. rewrite app_nil_r. auto.
Qed.
Lemma V_skip x w ns cs : V (skip x) w ns cs <-> (exists n, V x w n cs) /\ ns = [].
Proof.
  unfold skip. rewrite V_wrap. split.
  - intros [n [c [v' [c' [H [E [-> P]]]]]]]. cbn in E. injection E as <- <-. rewrite app_nil_r in P.
    split; [|reflexivity]. exists n. eapply V_perm; eauto.
  - intros [[n H] ->]. exists n, cs, VSkip, []. rewrite app_nil_r. auto.
Qed.
Lemma V_maybe x d w ns cs : V (maybe x d) w ns cs <-> V x w ns cs \/ (w = [] /\ ns = unskip d /\ cs = []).
Proof.
  unfold maybe. rewrite V_alt, V_subst. split.
  - intros [H|[[n H] ->]]; [auto|]. apply V_empty in H. destruct H as [-> [-> ->]]. auto.
  - intros [H|[-> [-> ->]]]; [auto|]. right. split; [|reflexivity]. exists []. apply V_empty. auto.
Qed.

Lemma M_seal n p x w v cs : M (seal n p x) w v cs <-> M x w v cs.
Proof. split; intros [c [H P]]; exists c; (split; [|exact P]); revert H; apply means_seal. Qed.
Lemma M_group x w v cs : M (group x) w v cs <-> M x w v cs.
Proof. split; intros [c [H P]]; exists c; (split; [|exact P]); revert H; apply means_group. Qed.
Lemma M_wrapped i x w v cs : M (Simple i [([x], ANone)]) w v cs <-> M x w v cs.
Proof. split; intros [c [H P]]; exists c; (split; [|exact P]); revert H; apply means_wrapped. Qed.

Lemma eph_group x : eph (group x) = false.
Proof. destruct x as [|i rs| |]; cbn; try reflexivity. destruct (info_ephemeral i) eqn:E; cbn; auto. Qed.
Lemma V_group x w ns cs : V (group x) w ns cs <-> exists v, M x w v cs /\ ns = unskip v.
Proof. rewrite V_node by apply eph_group. split; intros [v [H E]]; exists v; (split; [|exact E]); revert H; apply M_group. Qed.
Lemma A_group x w ns cs : A (group x) w ns cs <-> exists v, M x w v cs /\ ns = unskip v.
Proof. rewrite A_node by apply eph1_eph, eph_group. split; intros [v [H E]]; exists v; (split; [|exact E]); revert H; apply M_group. Qed.

(** Repetition: a string in pieces, each with its value and complaints. *)
Inductive pieces (R : str -> val -> list vcomplaint -> Prop) : str -> list val -> list vcomplaint -> Prop :=
| pc_nil : pieces R [] [] []
| pc_cons w ws v vs cs css : R w v cs -> pieces R ws vs css -> pieces R (w ++ ws) (v :: vs) (cs ++ css).

Lemma pieces_ext (R R' : str -> val -> list vcomplaint -> Prop) w vs cs :
  (forall w v cs, R w v cs -> R' w v cs) -> pieces R w vs cs -> pieces R' w vs cs.
Proof. intros E H. induction H; constructor; auto. Qed.

Lemma M_many i x w v cs : M (Repeated i None x) w v cs <-> exists vs cs', pieces (M x) w vs cs' /\ v = VList vs /\ Permutation cs' cs.
Proof.
  split.
  - intros [c [H P]]. apply means_repeated in H. destruct H as [vs [H ->]]. exists vs, c. repeat split; auto.
    clear P. induction H; constructor; auto. exists cs0. auto.
  - intros [vs [cs' [H [-> P]]]].
    assert (X : exists c, many_means x w vs c /\ Permutation c cs').
    { clear P. induction H as [|w ws v vs c1 c2 [c [H Q]] H2 [c' [IH P]]]; [exists []; split; constructor|].
      exists (c ++ c'). split; [now constructor|]. now rewrite Q, P. }
    destruct X as [c [X Q]]. exists c. split; [apply means_repeated; eauto|]. now rewrite Q.
Qed.
Lemma M_many' x w v cs : M (many x) w v cs <-> exists vs cs', pieces (M x) w vs cs' /\ v = VList vs /\ Permutation cs' cs.
Proof. apply M_many. Qed.
Lemma A_many x w ns cs : A (many x) w ns cs <-> exists vs cs', pieces (M x) w vs cs' /\ ns = [VList vs] /\ Permutation cs' cs.
Proof.
  rewrite A_node by reflexivity. split.
  - intros [v [H ->]]. apply M_many in H. destruct H as [vs [c [H [-> P]]]]. exists vs, c. auto.
  - intros [vs [c [H [-> P]]]]. exists (VList vs). split; [|reflexivity]. apply M_many. eauto.
Qed.
Lemma V_many x w ns cs : V (many x) w ns cs <-> exists vs cs', pieces (M x) w vs cs' /\ ns = [VList vs] /\ Permutation cs' cs.
Proof.
  rewrite V_node by reflexivity. split.
  - intros [v [H ->]]. apply M_many in H. destruct H as [vs [c [H [-> P]]]]. exists vs, c. auto.
  - intros [vs [c [H [-> P]]]]. exists (VList vs). split; [|reflexivity]. apply M_many. eauto.
Qed.

(** Recursive symbols. *)
Lemma M_rec n w v cs : M (Rec n) w v cs <-> M (Simple anon (rec_rules n)) w v cs.
Proof.
  split; intros [c [H P]]; exists c; (split; [|exact P]).
  - apply means_rec in H. now apply means_simple.
  - apply means_simple in H. now apply means_rec.
Qed.

End Calc.
