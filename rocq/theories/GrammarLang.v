(** The languages of the combinators, in terms of the languages of their
    arguments. *)
From Coq Require Import ZifyBool ZifyNat ZifyN.
From Verif Require Import Base Earley EarleySpec EarleyChart EarleyMain Grammar GrammarSem.
Open Scope nat_scope.
Unset Strict Implicit.

(** ** Languages (specification) *)

Definition language := str -> Prop.

(** Concatenation, and [n] copies one after another. *)
Definition cat (K L : language) : language := fun w => exists u v, w = u ++ v /\ K u /\ L v.
Fixpoint pow (n : nat) (L : language) : language :=
  match n with
  | O => fun w => w = []
  | S m => cat L (pow m L)
  end.

Lemma cat_assoc K L M w : cat (cat K L) M w <-> cat K (cat L M) w.
Proof.
  split.
  - intros [u [v [-> [[u1 [u2 [-> [H1 H2]]]] H3]]]]. exists u1, (u2 ++ v). rewrite app_assoc. repeat split; auto.
    exists u2, v. auto.
  - intros [u [v [-> [H1 [v1 [v2 [-> [H2 H3]]]]]]]]. exists (u ++ v1), v2. rewrite app_assoc. repeat split; auto.
    exists u, v1. auto.
Qed.
Lemma cat_ext (K K' L L' : language) w : (forall w, K w <-> K' w) -> (forall w, L w <-> L' w) -> cat K L w <-> cat K' L' w.
Proof. intros H1 H2. unfold cat. split; intros [u [v [E [A B]]]]; exists u, v; (split; [exact E|]); split; (apply H1 || apply H2); assumption. Qed.
Lemma pow_ext n (L L' : language) : (forall w, L w <-> L' w) -> forall w, pow n L w <-> pow n L' w.
Proof. intro H. induction n as [|n IH]; intro w; cbn [pow]; [tauto|]. now apply cat_ext. Qed.
Lemma cat_nil_l (L : language) w : cat (fun u => u = []) L w <-> L w.
Proof. split; [intros [u [v [-> [-> H]]]]; exact H|]. intro H. exists [], w. auto. Qed.
Lemma cat_nil_r (L : language) w : cat L (fun u => u = []) w <-> L w.
Proof. split; [intros [u [v [-> [H ->]]]]; now rewrite app_nil_r|]. intro H. exists w, []. now rewrite app_nil_r. Qed.
Lemma pow_add n m L w : pow (n + m) L w <-> cat (pow n L) (pow m L) w.
Proof.
  revert w. induction n as [|n IH]; intro w; cbn [pow Nat.add]; [now rewrite cat_nil_l|].
  rewrite cat_assoc. apply cat_ext; [tauto|exact IH].
Qed.
Lemma pow_1 (L : language) w : pow 1 L w <-> L w.
Proof. cbn [pow]. apply cat_nil_r. Qed.

Section Lang.
Variable rec_rules : str -> list rule.
Notation G := (sgrammar rec_rules).

(** The language of a symbol. *)
Definition lang (x : symbol) : language := fun w => @derives G [to_sym x] w.
Definition rlang (r : rule) : language := fun w => @derives G (map to_sym (fst r)) w.
Definition rslang (rs : list rule) : language := fun w => exists r, In r rs /\ rlang r w.

Lemma lang_term n b w : lang (Term n b) w <-> exists c, w = [c] /\ N.testbit b c = true.
Proof.
  unfold lang. cbn [to_sym]. split.
  - intro H. inversion H as [|bits c ss w' TB D|]; subst. inversion D; subst. eauto.
  - intros [c [-> H]]. constructor; [exact H|constructor].
Qed.

Definition is_nt (x : symbol) : bool := match x with Term _ _ => false | _ => true end.

Lemma lang_nt x w : is_nt x = true -> lang x w <-> rslang (rules_of rec_rules x) w.
Proof.
  intro N. assert (E : to_sym x = Nt (x : nt G)) by now destruct x. unfold lang. rewrite E.
  rewrite <- (@generates_derives G x). reflexivity.
Qed.

Lemma lang_simple i rs w : lang (Simple i rs) w <-> rslang rs w.
Proof. now rewrite lang_nt. Qed.

Lemma lang_as_rule x w : rlang (as_rule x) w <-> lang x w.
Proof.
  destruct x as [|i [|r [|r' rs]]| |]; cbn [as_rule]; try reflexivity.
  destruct (info_ephemeral i); [|reflexivity]. rewrite lang_simple. unfold rslang. split.
  - intro H. exists r. simpl. auto.
  - intros [r0 [[<-|[]] H]]. exact H.
Qed.

Lemma rslang_1 r w : rslang [r] w <-> rlang r w.
Proof. unfold rslang. split; [intros [r0 [[<-|[]] H]]; exact H|]. intro H. exists r. simpl. auto. Qed.
Lemma rslang_app rs rs' w : rslang (rs ++ rs') w <-> rslang rs w \/ rslang rs' w.
Proof.
  unfold rslang. split.
  - intros [r [I H]]. apply in_app_iff in I. destruct I; eauto.
  - intros [[r [I H]]|[r [I H]]]; exists r; rewrite in_app_iff; auto.
Qed.

Lemma lang_as_rules x w : rslang (as_rules x) w <-> lang x w.
Proof.
  destruct x as [|i rs| |]; cbn [as_rules]; try apply rslang_1.
  destruct (info_ephemeral i); [now rewrite lang_simple|apply rslang_1].
Qed.

Lemma lang_alt a b w : lang (alt a b) w <-> lang a w \/ lang b w.
Proof.
  assert (X : lang (Simple anon (as_rules a ++ as_rules b)) w <-> lang a w \/ lang b w)
    by now rewrite lang_simple, rslang_app, !lang_as_rules.
  destruct a; try exact X. destruct b; try exact X. cbn [alt]. rewrite !lang_term. split.
  - intros [c [-> H]]. rewrite N.lor_spec in H. apply orb_true_iff in H. destruct H; eauto.
  - intros [[c [-> H]]|[c [-> H]]]; exists c; rewrite N.lor_spec, H; auto using orb_true_r.
Qed.

Lemma rlang_concat r r' w : rlang (rule_concat r r') w <-> cat (rlang r) (rlang r') w.
Proof.
  unfold rlang, rule_concat, cat. cbn [fst]. rewrite map_app. split.
  - intro H. apply (@derives_split G) in H. destruct H as [u [v [-> [H1 H2]]]]. eauto.
  - intros [u [v [-> [H1 H2]]]]. now apply (@derives_app G).
Qed.

Lemma lang_seq a b w : lang (seq2 a b) w <-> cat (lang a) (lang b) w.
Proof.
  unfold seq2. rewrite lang_simple, rslang_1, rlang_concat. apply cat_ext; intro; apply lang_as_rule.
Qed.

Lemma lang_wrap f x w : lang (wrap f x) w <-> lang x w.
Proof.
  unfold wrap. rewrite lang_simple, <- lang_as_rules. unfold rslang. split.
  - intros [r [I H]]. apply in_map_iff in I. destruct I as [r0 [<- I]]. exists r0. auto.
  - intros [r [I H]]. exists (rule_wrap f r). split; [now apply in_map|exact H].
Qed.

Lemma lang_empty w : lang empty w <-> w = [].
Proof.
  unfold empty. rewrite lang_simple, rslang_1. unfold rlang. cbn [fst map]. split.
  - intro H. now inversion H.
  - intros ->. constructor.
Qed.

Lemma lang_add a b w : lang (add a b) w <-> cat (lang a) (lang b) w.
Proof. unfold add. now rewrite lang_wrap, lang_seq. Qed.
Lemma lang_modl a b w : lang (modl a b) w <-> cat (lang a) (lang b) w.
Proof. unfold modl. now rewrite lang_wrap, lang_seq. Qed.
Lemma lang_skip x w : lang (skip x) w <-> lang x w.
Proof. apply lang_wrap. Qed.
Lemma lang_mark n x w : lang (mark n x) w <-> lang x w.
Proof. apply lang_wrap. Qed.
Lemma lang_maybe x d w : lang (maybe x d) w <-> lang x w \/ w = [].
Proof. unfold maybe. now rewrite lang_alt, lang_wrap, lang_empty. Qed.

Lemma lang_group x w : lang (group x) w <-> lang x w.
Proof.
  destruct x as [|i rs| |]; cbn [group]; try reflexivity.
  destruct (info_ephemeral i); [|reflexivity]. now rewrite !lang_simple.
Qed.

Lemma lang_wrapped n p x w : lang (Simple (Info n p None) [([x], ANone)]) w <-> lang x w.
Proof. rewrite lang_simple, rslang_1. reflexivity. Qed.

Lemma rslang_ext rs rs' w : (forall r, In r rs -> exists r', In r' rs' /\ forall w, rlang r w -> rlang r' w) ->
  rslang rs w -> rslang rs' w.
Proof. intros H [r [I L]]. destruct (H r I) as [r' [I' H']]. exists r'. auto. Qed.

(** Repetitions. *)
Lemma repeated_unbounded i y w : lang (Repeated i None y) w <-> exists n, pow n (lang y) w.
Proof.
  split.
  - intros H. remember (List.length w) as m eqn:Em.
    (* a left-recursive chain: by induction on the derivation *)
    assert (X : forall ss w, @derives G ss w -> forall ss', ss = to_sym (Repeated i None y) :: ss' ->
                exists u v n, w = u ++ v /\ pow n (lang y) u /\ @derives G ss' v).
    { clear. intros ss w D. induction D as [|bits c ss w TB D IH|A r ss u w I D1 IH1 D2 IH2]; intros ss' E; try discriminate.
      cbn [to_sym] in E. injection E as -> ->.
      cbn [g_rules sgrammar rules_of] in I. rewrite rules_repeated in I. destruct I as [<-|[<-|[]]].
      - cbn in D1. inversion D1; subst. exists [], w, 0. repeat split; auto.
      - destruct (IH1 [to_sym (group y)] eq_refl) as [u1 [u2 [n [-> [P Q]]]]].
        exists (u1 ++ u2), w, (n + 1). repeat split; auto. rewrite pow_add.
        exists u1, u2. repeat split; auto. rewrite pow_1. now apply lang_group. }
    destruct (X _ _ H [] eq_refl) as [u [v [n [-> [P Q]]]]]. inversion Q; subst. exists n. now rewrite app_nil_r.
  - intros [n H]. revert w H. induction n as [|n IH]; intros w H.
    + cbn in H. subst w. apply lang_nt; [reflexivity|]. cbn [rules_of]. rewrite rules_repeated.
      exists ([], AWrap (FSubst (VList [])) ANone). split; [simpl; auto|constructor].
    + replace (S n) with (n + 1) in H by lia. rewrite pow_add in H. destruct H as [u [v [-> [H1 H2]]]].
      rewrite pow_1 in H2. apply lang_nt; [reflexivity|]. cbn [rules_of]. rewrite rules_repeated.
      eexists. split; [right; left; reflexivity|]. unfold rlang. cbn [fst map].
      change [to_sym (Repeated i None y); to_sym (group y)] with ([to_sym (Repeated i None y)] ++ [to_sym (group y)]).
      apply (@derives_app G); [now apply IH|now apply lang_group].
Qed.

Lemma repeated_rules_lang i m y w :
  rslang (repeated_rules i (Some m) y) w <->
  w = [] \/ match m with
            | S (S m') => cat (lang y) (lang (Repeated (Info None false (Some false)) (Some (S m')) y)) w
            | _ => lang y w
            end.
Proof.
  unfold repeated_rules. destruct m as [|[|m']]; rewrite lang_as_rules, lang_alt, !lang_wrap, lang_empty, ?lang_seq; reflexivity.
Qed.

Lemma repeated_bounded i m y w :
  lang (Repeated i (Some m) y) w <-> exists n, n <= Nat.max 1 m /\ pow n (lang y) w.
Proof.
  rewrite lang_nt by reflexivity. cbn [rules_of].
  revert i w. induction m as [|m IH]; intros i w.
  - rewrite repeated_rules_lang. split.
    + intros [->|H]; [exists 0; split; [lia|reflexivity]|exists 1; split; [lia|now apply pow_1]].
    + intros [n [L H]]. destruct n as [|[|n]]; [left; exact H|right; now apply pow_1|lia].
  - rewrite repeated_rules_lang. destruct m as [|m'].
    + split.
      * intros [->|H]; [exists 0; split; [lia|reflexivity]|exists 1; split; [lia|now apply pow_1]].
      * intros [n [L H]]. destruct n as [|[|n]]; [left; exact H|right; now apply pow_1|lia].
    + split.
      * intros [->|[u [v [-> [H1 H2]]]]]; [exists 0; split; [lia|reflexivity]|].
        rewrite lang_nt in H2 by reflexivity. apply IH in H2. destruct H2 as [n [L H2]].
        exists (S n). split; [lia|]. exists u, v. auto.
      * intros [[|n] [L H]]; [left; exact H|right]. destruct H as [u [v [-> [H1 H2]]]].
        exists u, v. repeat split; auto. apply lang_nt; [reflexivity|]. apply IH. exists n. split; [lia|exact H2].
Qed.

Lemma lang_copies n r x w : lang (copies n r x) w <-> cat (lang r) (pow n (lang x)) w.
Proof.
  revert r w. induction n as [|n IH]; intros r w; cbn [copies pow].
  - now rewrite cat_nil_r.
  - rewrite IH. rewrite <- cat_assoc. apply cat_ext; [|tauto]. intro u. rewrite lang_seq.
    apply cat_ext; [tauto|]. apply lang_group.
Qed.

(** [times(min, max, x)]: between [min] and [max] copies.  The bounds
    [(0, 0)] are left out: see [times_0_0]. *)
Definition count_ok (min_ : nat) (max_ : option nat) (n : nat) : Prop :=
  min_ <= n /\ match max_ with Some m => n <= m | None => True end.

Lemma lang_times min_ max_ x w :
  max_ <> Some 0 -> match max_ with Some m => min_ <= m | None => True end ->
  lang (times min_ max_ x) w <-> exists n, count_ok min_ max_ n /\ pow n (lang x) w.
Proof.
  intros N0 LE. unfold times, count_ok. destruct min_ as [|mn].
  - unfold repeated. destruct max_ as [m|].
    + rewrite repeated_bounded. split; intros [n [L H]]; exists n; (split; [|exact H]);
        destruct m; try congruence; lia.
    + rewrite repeated_unbounded. split; intros [n H]; exists n; [split; [lia|exact H]|tauto].
  - set (k := S mn) in *.
    assert (M : forall w, lang (wrap FAsList (copies k empty x)) w <-> pow k (lang x) w).
    { intro u. rewrite lang_wrap, lang_copies. rewrite (@cat_ext (lang empty) (fun u => u = []) (pow k (lang x)) (pow k (lang x)) u).
      - apply cat_nil_l.
      - apply lang_empty.
      - tauto. }
    destruct max_ as [m|].
    + destruct (Nat.eqb_spec m k) as [->|Nk].
      * rewrite M. split; [intro H; exists k; split; [lia|exact H]|]. intros [n [L H]]. replace k with n by lia. exact H.
      * unfold repeated. rewrite lang_add. cbn [option_map].
        rewrite (cat_ext w M (fun w => @repeated_bounded (Info None false (Some false)) (m - k) x w)). split.
        -- intros [u [v [-> [H1 [n [L H2]]]]]]. exists (k + n). split; [lia|]. apply pow_add. exists u, v. auto.
        -- intros [n [L H]]. replace n with (k + (n - k)) in H by lia. apply pow_add in H.
           destruct H as [u [v [-> [H1 H2]]]]. exists u, v. repeat split; auto. exists (n - k). split; [lia|exact H2].
    + unfold repeated. rewrite lang_add. cbn [option_map].
      rewrite (cat_ext w M (fun w => @repeated_unbounded (Info None false (Some false)) x w)). split.
      -- intros [u [v [-> [H1 [n H2]]]]]. exists (k + n). split; [lia|]. apply pow_add. exists u, v. auto.
      -- intros [n [L H]]. replace n with (k + (n - k)) in H by lia. apply pow_add in H.
         destruct H as [u [v [-> [H1 H2]]]]. exists u, v. repeat split; auto. exists (n - k). exact H2.
Qed.

Lemma times_0_0 x w : lang (times 0 (Some 0) x) w <-> w = [] \/ lang x w.
Proof.
  unfold times, repeated. rewrite repeated_bounded. split.
  - intros [[|[|n]] [L H]]; [left; exact H|right; now apply pow_1|lia].
  - intros [->|H]; [exists 0|exists 1]; (split; [lia|]); [reflexivity|now apply pow_1].
Qed.

(** Terminals. *)
Lemma testbit_range lo hi c :
  N.testbit (N.lxor (N.ones (hi + 1)) (N.ones lo)) c = (xorb (N.ltb c (hi + 1)) (N.ltb c lo)).
Proof.
  rewrite N.lxor_spec. f_equal.
  - destruct (N.ltb_spec c (hi + 1)); [now apply N.ones_spec_low|now apply N.ones_spec_high].
  - destruct (N.ltb_spec c lo); [now apply N.ones_spec_low|now apply N.ones_spec_high].
Qed.

Lemma lang_octet_range lo hi w : (lo <= hi + 1)%N ->
  lang (octet_range lo hi) w <-> exists c, w = [c] /\ (lo <= c <= hi)%N.
Proof.
  intro L. unfold octet_range. rewrite lang_term. split; intros [c [-> H]]; exists c; (split; [reflexivity|]).
  - rewrite testbit_range in H. destruct (N.ltb_spec c (hi + 1)), (N.ltb_spec c lo); try discriminate; lia.
  - rewrite testbit_range. destruct (N.ltb_spec c (hi + 1)), (N.ltb_spec c lo); try reflexivity; lia.
Qed.

Lemma testbit_octet v c : N.testbit (bits_of (octet v)) c = N.eqb c v.
Proof.
  unfold octet, octet_range. cbn [bits_of]. rewrite testbit_range.
  destruct (N.ltb_spec c (v + 1)), (N.ltb_spec c v), (N.eqb_spec c v); try reflexivity; lia.
Qed.

Lemma lang_octet v w : lang (octet v) w <-> w = [v].
Proof.
  unfold octet. rewrite lang_octet_range by lia. split.
  - intros [c [-> H]]. f_equal. lia.
  - intros ->. exists v. split; [reflexivity|lia].
Qed.

Lemma lang_minus n b x w :
  lang (minus (Term n b) x) w <-> exists c, w = [c] /\ N.testbit b c = true /\ N.testbit (bits_of x) c = false.
Proof.
  unfold minus. rewrite lang_term. cbn [bits_of].
  split; intros [c [-> H]]; exists c; (split; [reflexivity|]).
  - rewrite N.lxor_spec, N.land_spec in H. destruct (N.testbit b c), (N.testbit (bits_of x) c); try discriminate; auto.
  - destruct H as [H1 H2]. now rewrite N.lxor_spec, N.land_spec, H1, H2.
Qed.

(** Literals. *)
Definition same_c (case_sensitive : bool) (c d : N) : Prop :=
  if case_sensitive then d = c else lower_c d = lower_c c.

Lemma lower_cases c d : lower_c d = lower_c c <-> d = lower_c c \/ d = upper_c c.
Proof. unfold lower_c, upper_c.
  destruct ((65 <=? c)%N && (c <=? 90)%N) eqn:E1, ((65 <=? d)%N && (d <=? 90)%N) eqn:E2, ((97 <=? c)%N && (c <=? 122)%N) eqn:E3; lia.
Qed.

Lemma lang_literal_c cs c w : lang (literal_c cs c) w <-> exists d, w = [d] /\ same_c cs c d.
Proof.
  unfold literal_c, same_c. destruct cs.
  - rewrite lang_octet. split; [intros ->; eauto|intros [d [-> ->]]; reflexivity].
  - rewrite lang_alt, !lang_octet. split.
    + intros [->| ->]; eexists; (split; [reflexivity|]); apply lower_cases; auto.
    + intros [d [-> H]]. apply lower_cases in H. destruct H as [->| ->]; auto.
Qed.

Lemma lang_literal cs x w : lang (literal' cs x) w <-> Forall2 (same_c cs) x w.
Proof.
  assert (X : forall x r w, lang (fold_left (fun r c => seq2 r (literal_c cs c)) x r) w <-> cat (lang r) (Forall2 (same_c cs) x) w).
  { clear. induction x as [|c x IH]; intros r w; cbn [fold_left].
    - rewrite <- (cat_nil_r (lang r) w). apply cat_ext; [tauto|]. intro u. split; [intros ->; constructor|]. intro H. now inversion H.
    - rewrite IH. rewrite (cat_ext w (fun w => @lang_seq r (literal_c cs c) w) (fun w => iff_refl _)), cat_assoc.
      apply cat_ext; [tauto|]. intro u. split.
      + intros [u1 [u2 [-> [H1 H2]]]]. apply lang_literal_c in H1. destruct H1 as [d [-> H1]]. constructor; auto.
      + intro H. inversion H as [|a d l l' H1 H2]; subst. exists [d], l'. repeat split; auto.
        apply lang_literal_c. eauto. }
  assert (Y : lang (wrap FJoinArgs (fold_left (fun r c => seq2 r (literal_c cs c)) x empty)) w <-> Forall2 (same_c cs) x w).
  { rewrite lang_wrap, X, (cat_ext w lang_empty (fun w => iff_refl _)). apply cat_nil_l. }
  destruct x as [|c [|d x]]; try exact Y. cbn [literal']. rewrite lang_literal_c. split.
  - intros [d [-> H]]. constructor; [exact H|constructor].
  - intro H. inversion H as [|a d l l' H1 H2]; subst. inversion H2; subst. eauto.
Qed.

Lemma lang_seal n p x w : lang (seal n p x) w <-> lang x w.
Proof.
  destruct x as [[nm|] b|[[nm|] pv e] rs|[[nm|] pv e] m y|nm]; cbn [seal]; try apply lang_wrapped.
  - now rewrite !lang_term.
  - now rewrite !lang_simple.
  - destruct m; [now rewrite !repeated_bounded|now rewrite !repeated_unbounded].
Qed.

End Lang.
