(** [string_excluding] (httpolice/parse.py:590-622). *)
From Coq Require Import ZifyBool ZifyNat ZifyN.
From Verif Require Import Base Earley EarleySpec EarleyChart EarleyMain Grammar GrammarSem GrammarLang GrammarVals.
Open Scope nat_scope.
Unset Strict Implicit.

Section Excl.
Variable rec_rules : str -> list rule.
Variable pyfun : pyf -> list val -> val * list vcomplaint.
Notation textual := (textual rec_rules pyfun).

(** Every octet of [w] is in the set. *)
Definition all_in (b : N) (w : str) : Prop := Forall (fun c => N.testbit b c = true) w.

Lemma pow_one_of b w : (exists n, pow n (one_of b) w) <-> all_in b w.
Proof.
  unfold all_in. split.
  - intros [n H]. apply pow_concat in H. destruct H as [ps [_ [F ->]]]. apply Forall_concat.
    eapply Forall_impl; [|exact F]. intros p [c [-> H]]. auto.
  - intro H. exists (List.length w). induction H as [|c w H F IH]; cbn [List.length pow]; [reflexivity|].
    exists [c], w. repeat split; auto. exists c. auto.
Qed.

Lemma textual_string_term n b : textual (string_ (Term n b)) (all_in b).
Proof. eapply textual_ext; [apply textual_string, textual_term|]. intro w. apply pow_one_of. Qed.

Lemma lower_idem c : lower_c (lower_c c) = lower_c c.
Proof. unfold lower_c. destruct ((65 <=? c)%N && (c <=? 90)%N) eqn:E; [|now rewrite E].
  destruct ((65 <=? c + 32)%N && (c + 32 <=? 90)%N) eqn:E2; lia. Qed.

Lemma testbit_literal c d : N.testbit (bits_of (literal_c false c)) d = N.eqb (lower_c d) (lower_c c).
Proof.
  unfold literal_c. pose proof (testbit_octet (lower_c c) d) as A. pose proof (testbit_octet (upper_c c) d) as B.
  unfold octet, octet_range in *. cbn [alt bits_of] in *. rewrite N.lor_spec, A, B.
  pose proof (lower_cases c d) as L. destruct (N.eqb_spec (lower_c d) (lower_c c)), (N.eqb_spec d (lower_c c)), (N.eqb_spec d (upper_c c)); cbn; tauto.
Qed.

Lemma free_bits inits : forall n b, exists n' b',
  fold_left (fun f c => minus f (literal_c false c)) inits (Term n b) = Term n' b'
  /\ forall d, N.testbit b' d = N.testbit b d && negb (existsb (fun c => N.eqb (lower_c d) (lower_c c)) inits).
Proof.
  induction inits as [|c inits IH]; intros n b; cbn [fold_left existsb].
  - exists n, b. split; [reflexivity|]. intro d. now rewrite andb_true_r.
  - unfold minus at 2. cbn [bits_of].
    destruct (IH None (N.lxor b (N.land b (bits_of (literal_c false c))))) as [n' [b' [E H]]].
    exists n', b'. split; [exact E|]. intro d. rewrite H, N.lxor_spec, N.land_spec, testbit_literal.
    destruct (N.testbit b d), (N.eqb (lower_c d) (lower_c c)), (existsb _ inits); reflexivity.
Qed.

Lemma initials_spec l c : In c (initials l) <-> exists d x, In (d :: x) l /\ lower_c d = c.
Proof.
  induction l as [|[|d x] l IH]; cbn [initials].
  - split; [easy|]. intros [d [x [[] _]]].
  - rewrite IH. split; intros [d [x [I E]]]; exists d, x; (split; [|exact E]); simpl in *; [auto|]. destruct I as [I|I]; [discriminate|auto].
  - destruct (existsb (N.eqb (lower_c d)) (initials l)) eqn:X.
    + rewrite IH. split.
      * intros [d0 [x0 [I E]]]. exists d0, x0. simpl. auto.
      * intros [d0 [x0 [[I|I] E]]]; [|eauto]. injection I as -> ->. apply IH.
        apply existsb_exists in X. destruct X as [e [Ie Ee]]. apply N.eqb_eq in Ee. congruence.
    + split.
      * intros [<-|I]; [exists d, x; simpl; auto|]. apply IH in I. destruct I as [d0 [x0 [I E]]]. exists d0, x0. simpl. auto.
      * intros [d0 [x0 [[I|I] E]]]; [injection I as -> ->; left; exact E|]. right. apply IH. eauto.
Qed.

Lemma continuations_spec c l x : In x (continuations c l) <-> exists d, In (d :: x) l /\ lower_c d = c.
Proof.
  unfold continuations. rewrite in_flat_map. split.
  - intros [[|d y] [I H]]; [contradiction|]. destruct (N.eqb_spec (lower_c d) c) as [E|]; [|contradiction].
    destruct H as [<-|[]]. eauto.
  - intros [d [I E]]. exists (d :: x). split; [exact I|]. cbn. apply N.eqb_eq in E. rewrite E. simpl. auto.
Qed.

(** Both cases of every character of the words are in the set. *)
Definition covers (b : N) (l : list str) : Prop :=
  forall x c, In x l -> In c x -> N.testbit b (lower_c c) = true /\ N.testbit b (upper_c c) = true.

(** [w] is in the set and is none of the words, up to case. *)
Definition excluding_lang (b : N) (l : list str) : language :=
  fun w => all_in b w /\ forall x, In x l -> map lower_c x <> map lower_c w.

(** Every character of [w] is in the set, or ends a part of [w] with which,
    up to case, one of the words begins. *)
Definition spells (b : N) (l : list str) (w : str) : Prop :=
  forall x c y, w = x ++ c :: y -> N.testbit b c = true \/ exists e t, In (e ++ t) l /\ map lower_c e = map lower_c (x ++ [c]).
Definition excluding_any (b : N) (l : list str) : language :=
  fun w => spells b l w /\ forall x, In x l -> map lower_c x <> map lower_c w.

Lemma spells_cons b l c w : spells b l (c :: w) <->
  (N.testbit b c = true \/ In (lower_c c) (initials l)) /\ spells b (continuations (lower_c c) l) w.
Proof.
  split.
  - intro H. split.
    + destruct (H [] c w eq_refl) as [K|(e & t & I & E)]; [now left|right]. apply initials_spec. destruct e as [|d [|? ?]]; try discriminate. injection E as E. exists d, t. auto.
    + intros x d y ->. destruct (H (c :: x) d y eq_refl) as [K|(e & t & I & E)]; [now left|right]. destruct e as [|f e]; [discriminate|]. cbn [map app] in E. injection E as E1 E2.
      exists e, t. split; [|exact E2]. apply continuations_spec. exists f. auto.
  - intros [H K] x d y E. destruct x as [|f x]; cbn [app] in E; injection E as E1 E2.
    + subst d. destruct H as [H|H]; [now left|right]. apply initials_spec in H. destruct H as (f & t & I & E). exists [f], t. cbn [app map]. split; [exact I|]. now rewrite E.
    + subst f. destruct (K x d y E2) as [H'|(e & t & I & E')]; [now left|right]. apply continuations_spec in I. destruct I as (f & I & Ef). exists (f :: e), t. split; [exact I|]. cbn [map app]. now rewrite Ef, E'.
Qed.
Lemma spells_none b w : spells b [] w <-> all_in b w.
Proof.
  unfold all_in. split.
  - intro H. apply Forall_forall. intros c I. apply in_split in I. destruct I as (x & y & ->). destruct (H x c y eq_refl) as [K|(e & t & [] & _)]. exact K.
  - intros H x c y ->. left. rewrite Forall_forall in H. apply H. apply in_or_app. right. now left.
Qed.

(** The alternatives, without assumptions. *)
Lemma textual_fold_alt (f : N -> symbol) (K : N -> language) inits : (forall c, In c inits -> textual (f c) (K c)) ->
  forall r L, textual r L ->
  textual (fold_left (fun r c => alt r (f c)) inits r) (fun w => L w \/ exists c, In c inits /\ K c w).
Proof.
  intro H. induction inits as [|c inits IH]; intros r L T; cbn [fold_left].
  - eapply textual_ext; [exact T|]. intro w. split; [auto|]. intros [|[c [[] _]]]; auto.
  - eapply textual_ext.
    + apply IH; [intros d I; apply H; simpl; auto|]. apply textual_alt; [exact T|apply H; simpl; auto].
    + intro w. cbn beta. split.
      * intros [[|]|[d [I X]]]; [auto|right; exists c; simpl; auto|right; exists d; simpl; auto].
      * intros [|[d [[<-|I] X]]]; [auto|auto|right; eauto].
Qed.

Lemma excluding_textual fuel : forall n b l, (forall x, In x l -> List.length x <= fuel) ->
  textual (excluding_ (S fuel) (Term n b) l) (excluding_any b l).
Proof.
  induction fuel as [fuel IH] using lt_wf_ind. intros n b l LE.
  cbn [excluding_]. set (inits := initials l).
  set (free := fold_left _ inits (Term n b)).
  assert (F : textual (add free (string_ (Term n b)))
     (fun w => exists c w', w = c :: w' /\ N.testbit b c = true /\ ~ In (lower_c c) inits /\ all_in b w')).
  { destruct (free_bits inits n b) as [n' [b' [E H]]]. unfold free. rewrite E.
    eapply textual_ext; [apply textual_add; [apply textual_term|apply textual_string_term]|]. intro w. split.
    - intros [u [v [-> [[c [-> Hc]] Hv]]]]. exists c, v. rewrite H in Hc. apply andb_true_iff in Hc. destruct Hc as [H1 H2].
      repeat split; auto. intro I. apply negb_true_iff in H2. rewrite <- not_true_iff_false in H2. apply H2.
      apply existsb_exists. exists (lower_c c). split; [exact I|]. rewrite lower_idem. apply N.eqb_refl.
    - intros [c [w' [-> [H1 [H2 H3]]]]]. exists [c], w'. repeat split; auto. exists c. split; [reflexivity|].
      rewrite H, H1. cbn. apply negb_true_iff. rewrite <- not_true_iff_false. intro X. apply existsb_exists in X.
      destruct X as [d [I X]]. apply N.eqb_eq in X. apply H2. rewrite X. unfold inits in *.
      apply initials_spec in I. destruct I as [e [x [I Ed]]]. subst d. rewrite lower_idem. apply initials_spec. eauto. }
  assert (C : forall c, In c inits -> textual (add (literal_c false c) (excluding_ fuel (Term n b) (continuations c l)))
     (fun w => exists d w', w = d :: w' /\ lower_c d = c /\ excluding_any b (continuations c l) w')).
  { intros c I. pose proof I as I0. unfold inits in I. apply initials_spec in I. destruct I as [d0 [x0 [I E]]].
    destruct fuel as [|fuel]; [specialize (LE _ I); simpl in LE; lia|].
    eapply textual_ext.
    - apply textual_add; [apply textual_literal_c|]. apply IH; [lia|].
      intros x Ix. apply continuations_spec in Ix. destruct Ix as [d [Ix _]]. specialize (LE _ Ix). simpl in LE. lia.
    - assert (Ec : lower_c c = c) by (subst c; apply lower_idem). intro w. unfold same_c. split.
      + intros [u [v [-> [[d [-> Hd]] Hv]]]]. exists d, v. rewrite Ec in Hd. auto.
      + intros [d [w' [-> [Hd Hw]]]]. exists [d], w'. repeat split; try apply Hw. exists d. rewrite Ec. auto. }
  pose proof (textual_fold_alt C F) as R. cbn beta in R.
  assert (S1 : forall c w', (exists c0, In c0 inits /\ exists d w'', c :: w' = d :: w'' /\ lower_c d = c0 /\ excluding_any b (continuations c0 l) w'')
     <-> In (lower_c c) inits /\ excluding_any b (continuations (lower_c c) l) w').
  { intros c w'. split.
    - intros [c0 [I [d [w'' [E [H1 H2]]]]]]. injection E as <- <-. subst c0. auto.
    - intros [I H]. exists (lower_c c). split; [exact I|]. exists c, w'. auto. }
  assert (NE : forall c w', (exists c0 w0, c :: w' = c0 :: w0 /\ N.testbit b c0 = true /\ ~ In (lower_c c0) inits /\ all_in b w0) \/
      (exists c0, In c0 inits /\ exists d w'', c :: w' = d :: w'' /\ lower_c d = c0 /\ excluding_any b (continuations c0 l) w'')
      <-> excluding_any b l (c :: w')).
  { intros c w'. rewrite S1. unfold excluding_any. rewrite spells_cons. fold inits. split.
    - intros [[c0 [w0 [E [H1 [H2 H3]]]]]|[I [H1 H2]]].
      + injection E as <- <-. assert (N0 : continuations (lower_c c) l = []).
        { destruct (continuations (lower_c c) l) as [|x k] eqn:K; [reflexivity|]. exfalso. apply H2. unfold inits. apply initials_spec.
          assert (Ix : In x (continuations (lower_c c) l)) by (rewrite K; now left). apply continuations_spec in Ix. destruct Ix as (d & Ix & E). eauto. }
        rewrite N0, spells_none. split; [auto|]. intros [|d x] Ix X; [discriminate|]. cbn [map] in X. injection X as X1 X2.
        apply H2. unfold inits. apply initials_spec. eauto.
      + split; [auto|]. intros [|d' x'] Ix X; [discriminate|]. cbn [map] in X. injection X as X1 X2. apply (H2 x'); [|exact X2].
        apply continuations_spec. eauto.
    - intros [[A A'] B]. destruct (in_dec N.eq_dec (lower_c c) inits) as [I|NI].
      + right. split; [exact I|]. split; [exact A'|]. intros x Ix. apply continuations_spec in Ix. destruct Ix as [d [Ix E]].
        intro X. apply (B _ Ix). cbn [map]. congruence.
      + left. exists c, w'. split; [reflexivity|]. split; [tauto|]. split; [exact NI|]. apply spells_none.
        destruct (continuations (lower_c c) l) as [|x k] eqn:K; [exact A'|]. exfalso. apply NI. unfold inits. apply initials_spec.
        assert (Ix : In x (continuations (lower_c c) l)) by (rewrite K; now left). apply continuations_spec in Ix. destruct Ix as (d & Ix & E). eauto. }
  destruct (existsb _ l) eqn:Em.
  - eapply textual_ext; [exact R|]. intros [|c w']; [|apply NE]. split.
    + intros [[c [w' [E _]]]|[c [_ [d [w' [E _]]]]]]; discriminate.
    + intros [_ B]. exfalso. apply existsb_exists in Em. destruct Em as [[|] [I Ex]]; [|discriminate Ex]. now apply (B [] I).
  - eapply textual_ext; [apply textual_alt; [exact R|apply textual_subst_empty]|]. intros [|c w'].
    + split; [|auto]. intros _. split; [intros [|? ?] ? ? K; discriminate|]. intros [|d x] I X; [|discriminate].
      rewrite <- not_true_iff_false in Em. apply Em. apply existsb_exists. exists []. auto.
    + cbn beta. rewrite <- NE. split; [intros [H|H]; [exact H|discriminate]|auto].
Qed.

Lemma string_excluding_any n b l : textual (string_excluding (Term n b) l) (excluding_any b l).
Proof.
  unfold string_excluding. apply excluding_textual. intros x I.
  pose proof (list_max_le (map (@List.length N) l) (list_max (map (@List.length N) l))) as [H _].
  specialize (H (le_n _)). rewrite Forall_forall in H. apply H. now apply in_map.
Qed.
Lemma spells_covers b l w : covers b l -> spells b l w <-> all_in b w.
Proof.
  intro CV. rewrite <- spells_none. split; intros H x c y E; [|destruct (H x c y E) as [K|(? & ? & [] & _)]; now left]. left.
  destruct (H x c y E) as [K|(e & t & I & E')]; [exact K|]. destruct e as [|d e] using rev_ind; [destruct x; discriminate|]. rewrite !map_app in E'. apply app_inj_tail in E'. destruct E' as [_ E'].
  symmetry in E'. apply lower_cases in E'. rewrite <- app_assoc in I. destruct (CV _ d I) as [A B]; [apply in_or_app; right; now left|]. destruct E' as [->| ->]; auto.
Qed.
Lemma string_excluding_textual n b l : covers b l -> textual (string_excluding (Term n b) l) (excluding_lang b l).
Proof.
  intro CV. eapply textual_ext; [apply string_excluding_any|]. intro w. unfold excluding_any, excluding_lang. now rewrite spells_covers.
Qed.
End Excl.
