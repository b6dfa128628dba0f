(** What concrete symbols of the HTTP grammar mean. *)
From Coq Require Import ZifyBool ZifyNat ZifyN Permutation String.
From Verif Require Import Base Earley EarleySpec Parse Grammar GrammarSem GrammarLang GrammarWF GrammarVals GrammarExcl GrammarCalc
  Syntax Actions Reading HttpText.
Open Scope nat_scope.
Open Scope list_scope.
Unset Strict Implicit.

(** ** Sets of octets *)

Definition octets_upto_255 : list N := map N.of_nat (seq 0 256).

Lemma testbit_spec (b : N) (p : N -> bool) :
  N.ltb (N.size b) 257 = true ->
  forallb (fun c => Bool.eqb (N.testbit b c) (p c)) octets_upto_255 = true ->
  (forall c, (256 <= c)%N -> p c = false) ->
  forall c, N.testbit b c = p c.
Proof.
  intros B F Hi c. destruct (N.ltb_spec c 256) as [L|L].
  - rewrite forallb_forall in F. apply Bool.eqb_prop, F. unfold octets_upto_255. apply in_map_iff. exists (N.to_nat c). split; [lia|].
    apply in_seq. lia.
  - rewrite (Hi c L). destruct (N.eq_dec b 0) as [->|NZ]; [apply N.bits_0|]. apply N.bits_above_log2.
    rewrite N.size_log2 in B by exact NZ. apply N.ltb_lt in B. lia.
Qed.

Lemma among_bound l : forallb (fun c => N.ltb c 256) l = true -> forall c, (256 <= c)%N -> among l c = false.
Proof.
  intros F c L. unfold among. induction l as [|a l IH]; [reflexivity|]. cbn [existsb forallb] in *.
  apply andb_true_iff in F. destruct F as [F1 F2]. rewrite IH by exact F2. lia.
Qed.

Ltac octet_tac :=
  apply testbit_spec; [vm_compute; reflexivity|vm_compute; reflexivity|];
  let c := fresh "c" in let L := fresh "L" in intros c L;
  unfold is_tchar, is_escapable, is_qdtext, is_ctext, is_etagc, is_ws, is_digit, is_alpha, is_vchar, is_obs_text;
  repeat (rewrite among_bound; [|vm_compute; reflexivity|exact L]); lia.

Section Vals.
Variable nested : pyf -> list val -> val * list vcomplaint.
Notation pf := (pyfun nested).
Notation textual := (textual rec_rules pf).
Notation M := (M rec_rules pf).
Notation V := (V rec_rules pf).
Notation A := (A rec_rules pf).

Lemma textual_class x n b (p : N -> bool) : x = Term n b -> (forall c, N.testbit b c = p c) ->
  textual x (fun w => exists c, w = [c] /\ p c = true).
Proof.
  intros -> E. eapply textual_ext; [apply textual_term|]. intro w. unfold one_of.
  split; intros [c [H1 H2]]; exists c; (split; [exact H1|]); [rewrite <- E|rewrite E]; exact H2.
Qed.
Lemma textual_string_class x n b (p : N -> bool) : x = Term n b -> (forall c, N.testbit b c = p c) ->
  textual (string_ x) (all p).
Proof.
  intros -> E. eapply textual_ext; [apply textual_string_term|]. intro w. unfold all_in, all.
  split; apply Forall_impl; intro c; now rewrite E.
Qed.
Lemma pow_class (p : N -> bool) n w : pow n (fun w => exists c, w = [c] /\ p c = true) w <-> List.length w = n /\ all p w.
Proof.
  revert w. induction n as [|n IH]; intro w.
  - cbn. split; [intros ->; split; [reflexivity|constructor]|]. intros [H _]. now destruct w.
  - cbn [pow]. unfold cat. split.
    + intros [u [v [-> [[c [-> P]] H]]]]. apply IH in H. destruct H as [<- H]. split; [reflexivity|]. now constructor.
    + intros [L H]. destruct w as [|c w]; [discriminate L|]. inversion H; subst. exists [c], w. repeat split; eauto. apply IH.
      split; [|assumption]. now injection L.
Qed.
Lemma textual_string1_class x n b (p : N -> bool) : x = Term n b -> (forall c, N.testbit b c = p c) ->
  textual (string1 x) (all1 p).
Proof.
  intros E1 E2. eapply textual_ext; [apply textual_string1; eapply textual_class; eauto|]. intro w. split.
  - intros [k [L H]]. apply pow_class in H. destruct H as [<- H]. split; [|exact H]. intros ->. cbn in L. lia.
  - intros [N H]. exists (List.length w). split; [destruct w; cbn; [congruence|lia]|]. apply pow_class. auto.
Qed.
Lemma textual_times_class x n b (p : N -> bool) k : x = Term n b -> (forall c, N.testbit b c = p c) -> 1 <= k ->
  textual (string_times_ k k x) (fun w => List.length w = k /\ all p w).
Proof.
  intros E1 E2 K. eapply textual_ext; [apply textual_string_times|].
  - eapply textual_class; eauto.
  - intro H. injection H as ->. lia.
  - lia.
  - intro w. unfold count_ok. split.
    + intros [m [L H]]. apply pow_class in H. destruct H as [<- H]. split; [lia|exact H].
    + intros [<- H]. exists (List.length w). split; [lia|]. apply pow_class. auto.
Qed.

Lemma digit_bits c : N.testbit (bits_of DIGIT) c = is_digit c.
Proof. revert c. octet_tac. Qed.
Lemma alpha_bits c : N.testbit (bits_of ALPHA) c = is_alpha c.
Proof. revert c. octet_tac. Qed.
Lemma tchar_bits c : N.testbit (bits_of tchar) c = is_tchar c.
Proof. revert c. octet_tac. Qed.
Lemma qdtext_bits c : N.testbit (bits_of qdtext) c = is_qdtext c.
Proof. revert c. octet_tac. Qed.
Lemma ctext_bits c : N.testbit (bits_of ctext) c = is_ctext c.
Proof. revert c. octet_tac. Qed.
Definition escapable := alt (alt (alt HTAB SP) VCHAR) obs_text.
Lemma escapable_bits c : N.testbit (bits_of escapable) c = is_escapable c.
Proof. revert c. octet_tac. Qed.
Lemma ws_bits c : N.testbit (bits_of (alt SP HTAB)) c = is_ws c.
Proof. revert c. octet_tac. Qed.

Lemma token_textual : textual token (all1 is_tchar).
Proof. apply textual_seal; [reflexivity|]. apply (@textual_string1_class tchar (Some (s "tchar")) (bits_of tchar)); [reflexivity|apply tchar_bits]. Qed.
Lemma OWS_textual : textual OWS ows.
Proof. apply textual_seal; [reflexivity|]. apply (@textual_string_class (alt SP HTAB) None (bits_of (alt SP HTAB))); [reflexivity|apply ws_bits]. Qed.

(** ** Numbers *)
Lemma digits_val_spec w : forall acc, all is_digit w -> digits_val acc w = Some (fold_left (fun n c => 10 * n + (c - 48))%N w acc).
Proof.
  induction w as [|c w IH]; intros acc H; [reflexivity|]. inversion H; subst. cbn [digits_val fold_left].
  unfold is_digit in *. match goal with E : _ = true |- _ => rewrite E end. now apply IH.
Qed.
Lemma int_of_spec w : all1 is_digit w -> int_of w = VInt (Z.of_N (decimal w)).
Proof.
  intros [N H]. unfold int_of. rewrite digits_val_spec by exact H. destruct w; [congruence|reflexivity].
Qed.

Definition int_spec (w : str) (v : val) (cs : list vcomplaint) : Prop :=
  all1 is_digit w /\ v = VInt (Z.of_N (decimal w)) /\ cs = [].

Lemma V_int x L : textual x L -> (forall w, L w -> all1 is_digit w) -> forall w ns cs,
  V (wrap FInt x) w ns cs <-> L w /\ ns = [VInt (Z.of_N (decimal w))] /\ cs = [].
Proof.
  intros T D w ns cs. rewrite V_wrap. split.
  - intros [n [c [v [c' [H [E [-> P]]]]]]]. apply (V_text T) in H. destruct H as [H [-> ->]]. cbn in E. rewrite int_of_spec in E by auto.
    injection E as <- <-. apply Permutation_nil in P. auto.
  - intros [H [-> ->]]. exists [VStr w], [], (VInt (Z.of_N (decimal w))), []. cbn. rewrite int_of_spec by auto. repeat split; auto.
    apply (V_text T). auto.
Qed.

Lemma digits1_textual : textual (string1 DIGIT) (all1 is_digit).
Proof. apply (@textual_string1_class DIGIT (Some (s "DIGIT")) (bits_of DIGIT)); [reflexivity|apply digit_bits]. Qed.

Lemma M_one x (P : str -> Prop) (f : str -> val) (g : str -> list vcomplaint) : (forall w, f w <> VSkip) ->
  (forall w ns cs, V x w ns cs <-> P w /\ ns = [f w] /\ Permutation (g w) cs) ->
  forall w v cs, M x w v cs <-> P w /\ v = f w /\ Permutation (g w) cs.
Proof.
  intros F H w v cs. rewrite M_V. split.
  - intros [ns [HV ->]]. apply H in HV. destruct HV as [HP [-> Q]]. rewrite collapse_one. auto.
  - intros [HP [-> Q]]. exists [f w]. rewrite collapse_one. split; [|reflexivity]. apply H. auto.
Qed.

Lemma Content_Length_M w v cs : M Content_Length w v cs <-> int_spec w v cs.
Proof.
  unfold Content_Length, pivot_. rewrite M_seal, M_V. unfold int_spec. split.
  - intros [ns [H ->]]. apply (V_int digits1_textual) in H; [|tauto]. destruct H as [H [-> ->]]. rewrite collapse_one. auto.
  - intros [H [-> ->]]. exists [VInt (Z.of_N (decimal w))]. rewrite collapse_one. split; [|reflexivity].
    apply (V_int digits1_textual); auto.
Qed.

(** ** Quoted strings *)

Definition quoted_complaint (c : N) : vcomplaint := (1017%N, [(s "char", VStr [c])]).
Definition escapes (sensible q : str) : list vcomplaint := map quoted_complaint (filter (fun c => negb (among sensible c)) q).

Lemma same_exact c d : is_alpha c = false -> same_c false c d <-> d = c.
Proof. intro H. unfold same_c. cbv iota. rewrite lower_cases. unfold is_alpha, lower_c, upper_c in *. destruct ((65 <=? c)%N && (c <=? 90)%N) eqn:E1, ((97 <=? c)%N && (c <=? 122)%N) eqn:E2; try discriminate H. tauto. Qed.
Lemma lit_textual x : forallb (fun c => negb (is_alpha c)) (s x) = true -> textual (lit x) (fun w => w = s x).
Proof.
  intro F. eapply textual_ext; [apply textual_literal|]. intro w. revert w F. induction (s x) as [|c l IH]; intros w F.
  - split; [intro H; now inversion H|intros ->; constructor].
  - cbn in F. apply andb_true_iff in F. destruct F as [F1 F2]. apply negb_true_iff in F1. split.
    + intro H. inversion H as [|? d ? l' E H']; subst. apply (proj1 (same_exact d F1)) in E. apply IH in H'; [|exact F2]. congruence.
    + intros ->. constructor; [now apply (proj2 (same_exact c F1))|now apply IH].
Qed.
Lemma backslash_textual : textual (lit "\") (fun w => w = [92%N]).
Proof. now apply lit_textual. Qed.

Lemma quoted_pair_M p w v cs : M (quoted_pair p) w v cs <->
  exists c, w = [92%N; c] /\ is_escapable c = true /\ v = VStr [c] /\ cs = escapes (s p) [c].
Proof.
  unfold quoted_pair. rewrite M_seal, M_V. change (alt (alt (alt HTAB SP) VCHAR) obs_text) with escapable.
  assert (TE : textual escapable (fun w => exists c, w = [c] /\ is_escapable c = true)).
  { apply (@textual_class escapable None (bits_of escapable)); [reflexivity|apply escapable_bits]. }
  split.
  - intros [ns [H ->]]. apply V_wrap in H. destruct H as [n [c [v [c' [H [E [-> P]]]]]]].
    apply V_seq in H. destruct H as [w1 [w2 [n1 [n2 [c1 [c2 [-> [-> [Q [H1 H2]]]]]]]]]].
    apply A_eph in H1; [|reflexivity]. apply V_skip in H1. destruct H1 as [[m H1] ->].
    apply (V_text backslash_textual) in H1. destruct H1 as [-> [-> ->]].
    apply (A_text TE) in H2. destruct H2 as [[d [-> D]] [-> ->]]. apply Permutation_nil in Q. subst c.
    cbn in E. exists d. unfold escapes. cbn [filter]. unfold among.
    destruct (existsb (N.eqb d) (s p)); injection E as <- <-; cbn in P.
    + apply Permutation_nil in P. auto.
    + apply Permutation_length_1_inv in P. auto.
  - intros [c [-> [D [-> ->]]]]. exists [VStr [c]]. split; [|reflexivity]. apply V_wrap.
    exists [VStr [c]], [], (VStr [c]), (escapes (s p) [c]). repeat split; auto.
    + apply V_seq. exists [92%N], [c], [], [VStr [c]], [], []. repeat split; auto.
      * apply A_eph; [reflexivity|]. apply V_skip. split; [|reflexivity]. exists [VStr [92%N]]. apply (V_text backslash_textual). auto.
      * apply (A_text TE). eauto.
    + cbn. unfold escapes, among. cbn. now destruct (existsb (N.eqb c) (s p)).
Qed.

(** Joined repetition of a symbol whose values are strings. *)
Lemma V_string x (R : str -> str -> list vcomplaint -> Prop) :
  (forall w v cs, M x w v cs <-> exists t, R w t cs /\ v = VStr t) ->
  forall w ns cs, V (string_ x) w ns cs <->
    exists ts cs', pieces (fun w v c => exists t, R w t c /\ v = VStr t) w (map VStr ts) cs' /\ ns = [VStr (List.concat ts)] /\ Permutation cs' cs.
Proof.
  intros HR w ns cs. unfold string_. rewrite V_wrap. split.
  - intros [n [c [v [c' [H [E [-> P]]]]]]]. apply V_many in H. destruct H as [vs [cs' [H [-> Q]]]].
    assert (X : exists ts, vs = map VStr ts /\ pieces (fun w v c => exists t, R w t c /\ v = VStr t) w (map VStr ts) cs').
    { clear -H HR. induction H as [|w ws v vs cs css H1 H2 [ts [-> IH]]]; [exists []; split; [reflexivity|constructor]|].
      apply HR in H1. destruct H1 as [t [H1 ->]]. exists (t :: ts). split; [reflexivity|]. cbn. constructor; eauto. }
    destruct X as [ts [-> X]]. exists ts, cs'. cbn in E. rewrite join_vals_strs in E. injection E as <- <-. repeat split; auto.
    rewrite app_nil_r in P. now rewrite Q.
  - intros [ts [cs' [H [-> P]]]]. exists [VList (map VStr ts)], cs, (VStr (List.concat ts)), []. rewrite app_nil_r. repeat split; auto.
    + apply V_many. exists (map VStr ts), cs'. repeat split; auto. revert H. apply pieces_ext. intros. now apply HR.
    + cbn. now rewrite join_vals_strs.
Qed.

Definition qcontent := alt qdtext (quoted_pair """\").

Lemma qdtext_textual : textual qdtext (fun w => exists c, w = [c] /\ is_qdtext c = true).
Proof. apply (@textual_class qdtext (Some (s "qdtext")) (bits_of qdtext)); [reflexivity|apply qdtext_bits]. Qed.

Definition qpiece (w t : str) (cs : list vcomplaint) : Prop :=
  exists c, t = [c] /\ ((w = [c] /\ is_qdtext c = true /\ cs = []) \/
                        (w = [92%N; c] /\ is_escapable c = true /\ cs = escapes (s """\") [c])).

Lemma quoted_pair_V p w ns cs : V (quoted_pair p) w ns cs <->
  exists c, w = [92%N; c] /\ is_escapable c = true /\ ns = [VStr [c]] /\ cs = escapes (s p) [c].
Proof.
  rewrite V_node by reflexivity. split.
  - intros [v [H ->]]. apply quoted_pair_M in H. destruct H as [c [-> [H [-> ->]]]]. eauto 6.
  - intros [c [-> [H [-> ->]]]]. exists (VStr [c]). split; [|reflexivity]. apply quoted_pair_M. eauto 6.
Qed.

Lemma qcontent_M w v cs : M qcontent w v cs <-> exists t, qpiece w t cs /\ v = VStr t.
Proof.
  rewrite M_V. unfold qcontent. split.
  - intros [ns [H ->]]. apply V_alt in H. destruct H as [H|H].
    + apply (V_text qdtext_textual) in H. destruct H as [[c [-> H]] [-> ->]]. exists [c]. split; [|reflexivity]. exists c. auto 6.
    + apply quoted_pair_V in H. destruct H as [c [-> [H [-> ->]]]]. exists [c]. split; [|reflexivity]. exists c. auto 6.
  - intros [t [[c [-> [[-> [H ->]]|[-> [H ->]]]]] ->]]; exists [VStr [c]]; (split; [|reflexivity]); apply V_alt.
    + left. apply (V_text qdtext_textual). eauto.
    + right. apply quoted_pair_V. eauto 6.
Qed.

(** The pieces are what [unquote] reads. *)
Lemma escapes_cons p c q : escapes p (c :: q) = escapes p [c] ++ escapes p q.
Proof. unfold escapes. cbn. now destruct (among p c). Qed.

Lemma unquote_quote x : unquote (34%N :: x) = match x with [] => Some ([], []) | _ => None end.
Proof. reflexivity. Qed.
Lemma unquote_escape d x : unquote (92%N :: d :: x) =
  if is_escapable d then match unquote x with Some (t, q) => Some (d :: t, d :: q) | None => None end else None.
Proof. reflexivity. Qed.
Lemma unquote_qdtext c x : is_qdtext c = true -> unquote (c :: x) = match unquote x with Some (t, q) => Some (c :: t, q) | None => None end.
Proof.
  intro Q. cbn [unquote]. rewrite Q. destruct (N.eqb_spec c 34) as [->|]; [discriminate Q|]. destruct (N.eqb_spec c 92) as [->|]; [discriminate Q|reflexivity].
Qed.

Lemma unquote_complete w vs cs : pieces (fun w v c => exists t, qpiece w t c /\ v = VStr t) w vs cs ->
  exists t q, unquote (w ++ [34%N]) = Some (t, q) /\ join_vals vs = Some t /\ cs = escapes (s """\") q.
Proof.
  induction 1 as [|w ws v vs cs css [t0 [[c [-> H]] ->]] _ [t [q [IH1 [IH2 IH3]]]]].
  - exists [], []. auto.
  - destruct H as [[-> [Q ->]]|[-> [Q ->]]].
    + exists (c :: t), q. cbn [app]. rewrite unquote_qdtext, IH1 by exact Q. cbn. rewrite IH2. auto.
    + exists (c :: t), (c :: q). cbn [app]. rewrite unquote_escape, Q, IH1. rewrite (escapes_cons _ c q), IH3. cbn [join_vals]. rewrite IH2. auto.
Qed.

Lemma unquote_sound n : forall x t q, List.length x <= n -> unquote x = Some (t, q) -> exists w ts,
  x = w ++ [34%N] /\ t = List.concat ts /\
  pieces (fun w v c => exists t, qpiece w t c /\ v = VStr t) w (map VStr ts) (escapes (s """\") q).
Proof.
  induction n as [|n IH]; intros x t q L E; [destruct x; [discriminate E|cbn in L; lia]|].
  destruct x as [|c x]; [discriminate E|]. cbn [List.length] in L.
  destruct (N.eqb_spec c 34) as [->|N34].
  - rewrite unquote_quote in E. destruct x; [|discriminate E]. injection E as <- <-. exists [], []. repeat split. constructor.
  - destruct (N.eqb_spec c 92) as [->|N92].
    + destruct x as [|d x]; [discriminate E|]. rewrite unquote_escape in E. destruct (is_escapable d) eqn:D; [|discriminate E].
      destruct (unquote x) as [[t' q']|] eqn:U; [|discriminate E]. injection E as <- <-. cbn [List.length] in L.
      destruct (IH x t' q' ltac:(lia) U) as [w [ts [-> [-> P]]]]. exists ([92%N; d] ++ w), ([d] :: ts). repeat split.
      cbn [map]. rewrite escapes_cons. constructor; [|exact P]. exists [d]. split; [|reflexivity]. exists d. auto 6.
    + destruct (is_qdtext c) eqn:D.
      * rewrite unquote_qdtext in E by exact D. destruct (unquote x) as [[t' q']|] eqn:U; [|discriminate E]. injection E as <- <-.
        destruct (IH x t' q' ltac:(lia) U) as [w [ts [-> [-> P]]]]. exists ([c] ++ w), ([c] :: ts). repeat split.
        cbn [map]. change (escapes (s """\") q') with ([] ++ escapes (s """\") q'). constructor; [|exact P]. exists [c]. split; [|reflexivity]. exists c. auto 6.
      * cbn [unquote] in E. rewrite D in E. apply N.eqb_neq in N34, N92. rewrite N34, N92 in E. discriminate E.
Qed.

Definition quoted_spec (w : str) (v : val) (cs : list vcomplaint) : Prop :=
  exists x t q, w = 34%N :: x /\ unquote x = Some (t, q) /\ v = VStr t /\ cs = escapes (s """\") q.

Lemma dquote_textual : textual DQUOTE (fun w => w = [34%N]).
Proof.
  eapply textual_ext; [apply (@textual_class DQUOTE (Some (s "DQUOTE")) (bits_of DQUOTE) (fun c => N.eqb c 34)); [reflexivity|apply testbit_octet]|].
  intro w. split; [intros [c [-> E]]; apply N.eqb_eq in E; now subst|intros ->; exists 34%N; auto].
Qed.

Lemma skip_A x L : textual x L -> forall w ns cs, A (skip x) w ns cs -> L w /\ ns = [] /\ cs = [].
Proof.
  intros T w ns cs H. assert (X : V (skip x) w ns cs).
  { destruct (eph1 (skip x)) eqn:E; [now apply A_eph in H|]. apply A_node in H; [|exact E]. destruct H as [v [H ->]].
    apply M_V in H. destruct H as [ns [H ->]]. pose proof H as H'. apply V_skip in H'. destruct H' as [_ ->]. exact H. }
  apply V_skip in X. destruct X as [[n X] ->]. apply (V_text T) in X. destruct X as [X [_ ->]]. auto.
Qed.
Lemma A_skip x L : textual x L -> forall w ns cs, A (skip x) w ns cs <-> L w /\ ns = [] /\ cs = [].
Proof.
  intros T w ns cs. split; [now apply skip_A|]. intros [H [-> ->]].
  assert (X : V (skip x) w [] []). { apply V_skip. split; [|reflexivity]. exists [VStr w]. apply (V_text T). auto. }
  destruct (eph1 (skip x)) eqn:E; [now apply A_eph|]. apply A_node; [exact E|]. exists VSkip. split; [|reflexivity].
  apply M_V. exists []. auto.
Qed.

Lemma quoted_string_M w v cs : M quoted_string w v cs <-> exists cs', quoted_spec w v cs' /\ Permutation cs' cs.
Proof.
  unfold quoted_string, auto_. rewrite M_seal, M_V. fold qcontent. split.
  - intros [ns [H ->]]. apply V_seq in H. destruct H as [w1 [w2 [n1 [n2 [c1 [c2 [-> [-> [P [H1 H2]]]]]]]]]].
    apply A_eph in H1; [|reflexivity]. apply V_seq in H1. destruct H1 as [w3 [w4 [n3 [n4 [c3 [c4 [-> [-> [P' [H3 H4]]]]]]]]]].
    apply (A_skip dquote_textual) in H2. destruct H2 as [-> [-> ->]].
    apply (A_skip dquote_textual) in H3. destruct H3 as [-> [-> ->]].
    apply A_eph in H4; [|reflexivity]. apply (V_string qcontent_M) in H4. destruct H4 as [ts [cs' [H4 [-> Q]]]].
    destruct (unquote_complete H4) as [t [q [U [J ->]]]]. rewrite join_vals_strs in J. injection J as <-.
    exists (escapes (s """\") q). split.
    + exists (w4 ++ [34%N]), (List.concat ts), q. repeat split; auto.
    + rewrite Q. rewrite <- P. rewrite app_nil_r. exact P'.
  - intros [cs' [[x [t [q [-> [U [-> ->]]]]]] P]].
    destruct (@unquote_sound (List.length x) x t q (le_n _) U) as [w [ts [-> [-> H]]]]. exists [VStr (List.concat ts)]. split; [|reflexivity].
    apply V_seq. exists (34%N :: w), [34%N], [VStr (List.concat ts)], [], cs, []. repeat split.
    + now rewrite app_nil_r.
    + apply A_eph; [reflexivity|]. apply V_seq. exists [34%N], w, [], [VStr (List.concat ts)], [], cs. split; [reflexivity|]. split; [reflexivity|]. split; [apply Permutation_refl|]. split.
      * apply (A_skip dquote_textual). auto.
      * apply A_eph; [reflexivity|]. apply (V_string qcontent_M). eauto.
    + apply (A_skip dquote_textual). auto.
Qed.

End Vals.
