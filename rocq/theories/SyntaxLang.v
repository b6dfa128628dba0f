(** Language tags and encoded parameters: the meaning of their symbols is that
    of the specification in MoreValues.v. *)
From Coq Require Import ZifyBool ZifyNat ZifyN Permutation String.
From Verif Require Import Base Earley EarleySpec Parse Grammar GrammarSem GrammarLang GrammarWF GrammarVals GrammarExcl GrammarCalc
  Syntax Actions Reading HttpText HttpValues SyntaxVals SyntaxDen SyntaxParts SyntaxKit SyntaxMore SyntaxFields SyntaxAgents UriText SyntaxUri MoreValues.
Open Scope nat_scope.
Open Scope list_scope.
Unset Strict Implicit.
Local Open Scope string_scope.
Local Open Scope list_scope.

Definition tails (l : list str) : str := flat_map (fun x => 45%N :: x) l.
Lemma tails_app a b : tails (a ++ b) = tails a ++ tails b.
Proof. apply flat_map_app. Qed.
Lemma between_tails x l : between 45 (x :: l) = x ++ tails l.
Proof. revert x. induction l as [|y l IH]; intro x; [symmetry; apply app_nil_r|]. change (between 45 (x :: y :: l)) with (x ++ 45%N :: between 45 (y :: l)). rewrite IH. reflexivity. Qed.
Lemma tails_pow L n w : pow n (fun w => exists y, w = 45%N :: y /\ L y) w <-> exists l, List.length l = n /\ Forall L l /\ w = tails l.
Proof.
  revert w. induction n as [|n IH]; intro w; cbn [pow].
  - split; [intros ->; exists []; split; [reflexivity|]; split; [constructor|reflexivity]|]. intros ([|] & K & _ & ->); [reflexivity|discriminate K].
  - split.
    + intros (u & v & -> & (g & -> & G) & H). apply IH in H. destruct H as (l & <- & F & ->). exists (g :: l). split; [reflexivity|]. split; [now constructor|reflexivity].
    + intros ([|g l] & K & F & ->); [discriminate K|]. inversion F; subst. exists (45%N :: g), (tails l). split; [reflexivity|]. split; [eauto|]. apply IH. exists l. split; [now injection K|auto].
Qed.
Lemma alphanum_bits_ c : N.testbit (bits_of alphanum) c = is_alnum c.
Proof. exact (alphanum_bits c). Qed.
Lemma singleton_bits c : N.testbit (bits_of singleton) c = is_alnum c && negb (c =? 88)%N && negb (c =? 120)%N.
Proof. revert c. unfold is_alnum. octet_tac. Qed.

Section Lang.
Variable nested : pyf -> list val -> val * list vcomplaint.
Notation pf := (pyfun nested).
Notation textual := (textual rec_rules pf).
Notation M := (M rec_rules pf).
Notation V := (V rec_rules pf).
Notation A := (A rec_rules pf).
Notation is_M := (is_M nested).
Notation N_ := (SyntaxKit.N nested).

Lemma sized_textual x n b p lo hi : x = Term n b -> (forall c, N.testbit b c = p c) -> hi <> 0 -> lo <= hi -> textual (string_times_ lo hi x) (subtag_of p lo hi).
Proof.
  intros -> B H L. unfold string_times_. eapply textual_ext; [apply textual_string_times; [apply (@textual_class nested (Term n b) n b p eq_refl B)|congruence|exact L]|].
  intro w. unfold subtag_of, count_ok. split.
  - intros (k & K & P). apply pow_class in P. destruct P as [<- P]. split; [exact P|lia].
  - intros [P K]. exists (List.length w). split; [lia|]. apply pow_class. auto.
Qed.
Lemma alphas lo hi : hi <> 0 -> lo <= hi -> textual (string_times_ lo hi ALPHA) (subtag_of is_alpha lo hi).
Proof. apply (@sized_textual ALPHA (Some (s "ALPHA")) (bits_of ALPHA)); [reflexivity|apply alpha_bits]. Qed.
Lemma alnums lo hi : hi <> 0 -> lo <= hi -> textual (string_times_ lo hi alphanum) (subtag_of is_alnum lo hi).
Proof. apply (@sized_textual alphanum (Some (s "alphanum")) (bits_of alphanum)); [reflexivity|apply alphanum_bits_]. Qed.
Lemma digits_ lo hi : hi <> 0 -> lo <= hi -> textual (string_times_ lo hi DIGIT) (subtag_of is_digit lo hi).
Proof. apply (@sized_textual DIGIT (Some (s "DIGIT")) (bits_of DIGIT)); [reflexivity|apply digit_bits]. Qed.
Lemma hyphen x L : textual x L -> textual (add (lit "-") x) (fun w => exists y, w = 45%N :: y /\ L y).
Proof. intro T. eapply textual_ext; [apply textual_add; [apply (@lit_textual nested "-"); reflexivity|exact T]|]. intro w. split; [intros (h & z & -> & -> & Z); exists z; auto|]. intros (z & -> & Z). exists (s "-"), z. auto. Qed.
Lemma hyphen_maybe x L : textual x L -> textual (maybe_str (add (lit "-") x)) (fun w => exists l, at_most_one L l /\ w = tails l).
Proof.
  intro T. eapply textual_ext; [apply textual_maybe_str, hyphen, T|]. intro w. unfold at_most_one. split.
  - intros [(y & -> & Y)| ->]; [exists [y]|exists []]; (split; [eauto|]); [cbn [tails flat_map]; now rewrite app_nil_r|reflexivity].
  - intros (l & [->|(y & -> & Y)] & ->); [now right|left]. exists y. cbn [tails flat_map]. rewrite app_nil_r. auto.
Qed.
Lemma hyphen_all x L : textual x L -> textual (string_ (add (lit "-") x)) (fun w => exists l, Forall L l /\ w = tails l).
Proof.
  intro T. eapply textual_ext; [apply textual_string, hyphen, T|]. intro w. split.
  - intros (n & P). apply tails_pow in P. destruct P as (l & _ & F & ->). eauto.
  - intros (l & F & ->). exists (List.length l). apply tails_pow. eauto.
Qed.
Lemma hyphen_some x L : textual x L -> textual (string1 (add (lit "-") x)) (fun w => exists l, l <> [] /\ Forall L l /\ w = tails l).
Proof.
  intro T. eapply textual_ext; [apply textual_string1, hyphen, T|]. intro w. split.
  - intros (n & K & P). apply tails_pow in P. destruct P as (l & <- & F & ->). exists l. split; [|auto]. intros ->. cbn in K. lia.
  - intros (l & K & F & ->). exists (List.length l). split; [destruct l; [now destruct K|cbn [List.length]; lia]|]. apply tails_pow. eauto.
Qed.
Lemma x_textual : textual (lit "x") (fun w => exists c, is_x c /\ w = [c]).
Proof.
  eapply textual_ext; [apply same_textual|]. intro w. unfold is_x. split.
  - intro H. inversion H as [|? d ? l H1 H2]; subst. inversion H2; subst. exists d. split; [|reflexivity]. destruct H1 as [<-|(_ & D & [E|E])]; [now right|left; lia|unfold is_alpha in D; lia].
  - intros (c & C & ->). constructor; [|constructor]. destruct C as [->| ->]; [right; split; [reflexivity|]; split; [reflexivity|left; reflexivity]|now left].
Qed.
Lemma private_textual : textual privateuse (fun w => exists l, private_use l /\ w = between 45 l).
Proof.
  apply textual_seal; [reflexivity|]. eapply textual_ext; [apply textual_add; [apply x_textual|apply hyphen_some, alnums; lia]|]. intro w. unfold private_use. split.
  - intros (u & v & -> & (c & X & ->) & (l & K & F & ->)). exists ([c] :: l). split; [eauto 6|]. symmetry. apply between_tails.
  - intros (? & (c & r & -> & X & K & F) & ->). rewrite between_tails. exists [c], (tails r). split; [reflexivity|]. split; eauto.
Qed.
Lemma extension_textual : textual extension (fun w => exists l, extension_of l /\ w = between 45 l).
Proof.
  apply textual_seal; [reflexivity|]. eapply textual_ext; [apply textual_add; [apply (@class_one nested singleton (Some (s "singleton")) (bits_of singleton)); [reflexivity|apply singleton_bits]|apply hyphen_some, alnums; lia]|]. intro w. unfold extension_of. split.
  - intros (u & v & -> & (c & -> & X) & (l & K & F & ->)). exists ([c] :: l). split; [|symmetry; apply between_tails]. exists c, l. split; [reflexivity|]. unfold is_x. split; [lia|]. split; [lia|auto].
  - intros (? & (c & r & -> & X & Y & K & F) & ->). rewrite between_tails. exists [c], (tails r). split; [reflexivity|]. split; [|eauto]. exists c. split; [reflexivity|]. unfold is_x in Y. lia.
Qed.
Lemma extlang_textual : textual extlang (fun w => exists l, 1 <= List.length l <= 3 /\ Forall (subtag_of is_alpha 3 3) l /\ w = between 45 l).
Proof.
  apply textual_seal; [reflexivity|]. eapply textual_ext; [apply textual_add; [apply alphas; lia|unfold string_times_ at 1; apply textual_string_times; [apply hyphen, alphas; lia|discriminate|lia]]|]. intro w. unfold count_ok. split.
  - intros (u & v & -> & U & (n & K & P)). apply tails_pow in P. destruct P as (l & <- & F & ->). exists (u :: l). rewrite between_tails. cbn [List.length]. split; [unfold str in *; lia|]. split; [now constructor|reflexivity].
  - intros ([|u l] & K & F & ->); [cbn in K; lia|]. inversion F; subst. rewrite between_tails. exists u, (tails l). split; [reflexivity|]. split; [assumption|]. cbn [List.length] in K. exists (List.length l). split; [unfold str in *; lia|]. apply tails_pow. eauto.
Qed.
Lemma tails_between l : l <> [] -> 45%N :: between 45 l = tails l.
Proof. destruct l as [|x l]; [now intros []|]. intros _. rewrite between_tails. reflexivity. Qed.
Lemma language_5646_textual : textual language_5646 (fun w => exists x e, primary x e /\ w = x ++ tails e).
Proof.
  apply textual_seal; [reflexivity|]. eapply textual_ext; [apply textual_alt; [apply textual_alt; [apply textual_add; [apply alphas; lia|apply textual_maybe_str, hyphen, extlang_textual]|apply alphas; lia]|apply alphas; lia]|]. intro w. unfold primary. split.
  - intros [[(x & r & -> & X & R)|X]|X]; [|exists w, []|exists w, []].
    + destruct R as [(y & -> & (l & K & F & ->))| ->].
      * exists x, l. rewrite tails_between by (intros ->; cbn in K; lia). split; [|reflexivity]. left. split; [exact X|]. split; [lia|exact F].
      * exists x, []. split; [|reflexivity]. left. split; [exact X|]. split; [cbn; lia|constructor].
    + split; [|symmetry; apply app_nil_r]. right. split; [|reflexivity]. destruct X. split; [assumption|lia].
    + split; [|symmetry; apply app_nil_r]. right. split; [|reflexivity]. destruct X. split; [assumption|lia].
  - intros (x & e & [(X & K & F)|((X & K) & ->)] & ->).
    + left. left. exists x, (tails e). split; [reflexivity|]. split; [exact X|]. destruct e as [|y e]; [now right|left]. exists (between 45 (y :: e)). split; [symmetry; apply tails_between; discriminate|]. exists (y :: e). split; [cbn [List.length] in *; lia|auto].
    + rewrite app_nil_r. destruct (Nat.eq_dec (List.length x) 4); [left; right|right]; (split; [exact X|lia]).
Qed.
Lemma script_textual : textual script (subtag_of is_alpha 4 4).
Proof. apply textual_seal; [reflexivity|]. apply alphas; lia. Qed.
Lemma region_textual : textual region region_of.
Proof. apply textual_seal; [reflexivity|]. apply textual_alt; [apply alphas|apply digits_]; lia. Qed.
Lemma variant_textual : textual variant variant_of.
Proof.
  apply textual_seal; [reflexivity|]. apply textual_alt; [apply alnums; lia|]. eapply textual_ext; [apply textual_add; [apply digit_textual|apply alnums; lia]|]. intro w. split.
  - intros (u & v & -> & (c & -> & C) & X). exists c, v. auto.
  - intros (c & x & -> & C & X). exists [c], x. split; [reflexivity|]. split; [exists c; auto|exact X].
Qed.
Lemma extensions_textual : textual (string_ (add (lit "-") extension)) (fun w => exists es, Forall extension_of es /\ w = tails (List.concat es)).
Proof.
  eapply textual_ext; [apply hyphen_all, extension_textual|]. intro w. split.
  - intros (l & F & ->). induction F as [|y l (e & E & ->) F (es & G & IH)]; [exists []; split; [constructor|reflexivity]|]. exists (e :: es). split; [now constructor|]. cbn [List.concat]. rewrite tails_app, <- IH, <- (@tails_between e) by (destruct E as (? & ? & -> & _); discriminate). reflexivity.
  - intros (es & F & ->). exists (map (between 45) es). induction F as [|e es E F [IH1 IH2]]; [split; [constructor|reflexivity]|]. cbn [map]. split; [constructor; [eauto|exact IH1]|]. cbn [List.concat]. rewrite tails_app, IH2, <- (@tails_between e) by (destruct E as (? & ? & -> & _); discriminate). reflexivity.
Qed.
Lemma privately_textual : textual (maybe_str (add (lit "-") privateuse)) (fun w => exists p, (p = [] \/ private_use p) /\ w = tails p).
Proof.
  eapply textual_ext; [apply textual_maybe_str, hyphen, private_textual|]. intro w. split.
  - intros [(y & -> & (l & P & ->))| ->]; [exists l|exists []; split; [now left|reflexivity]]. split; [now right|]. apply tails_between. destruct P as (? & ? & -> & _). discriminate.
  - intros (p & [->|P] & ->); [now right|left]. exists (between 45 p). split; [|eauto]. symmetry. apply tails_between. destruct P as (? & ? & -> & _). discriminate.
Qed.
Lemma langtag_textual : textual langtag (fun w => exists l, w = between 45 l /\ language_parts l).
Proof.
  apply textual_seal; [reflexivity|].
  eapply textual_ext; [apply textual_add; [apply textual_add; [apply textual_add; [apply textual_add; [apply textual_add; [apply language_5646_textual|apply hyphen_maybe, script_textual]|apply hyphen_maybe, region_textual]|apply hyphen_all, variant_textual]|apply extensions_textual]|apply privately_textual]|].
  intro w. split.
  - intros (w1 & ? & -> & (w2 & ? & -> & (w3 & ? & -> & (w4 & ? & -> & (w5 & ? & -> & (x & e & P & ->) & (sc & S1 & ->)) & (r & R & ->)) & (vs & F & ->)) & (es & G & ->)) & (p & Q & ->)).
    exists (x :: e ++ sc ++ r ++ vs ++ List.concat es ++ p). split; [rewrite between_tails, !tails_app, <- !app_assoc; reflexivity|]. exists x, e, sc, r, vs, es, p. auto 8.
  - intros (? & -> & (x & e & sc & r & vs & es & p & -> & P & S1 & R & F & G & Q)). rewrite between_tails, !tails_app.
    exists ((((x ++ tails e) ++ tails sc) ++ tails r) ++ tails vs ++ tails (List.concat es)), (tails p). split; [rewrite <- !app_assoc; reflexivity|]. split; [|eauto].
    exists ((((x ++ tails e) ++ tails sc) ++ tails r) ++ tails vs), (tails (List.concat es)). split; [rewrite <- !app_assoc; reflexivity|]. split; [|eauto].
    exists (((x ++ tails e) ++ tails sc) ++ tails r), (tails vs). split; [reflexivity|]. split; [|eauto].
    exists ((x ++ tails e) ++ tails sc), (tails r). split; [reflexivity|]. split; [|eauto].
    exists (x ++ tails e), (tails sc). split; [reflexivity|]. split; [eauto|eauto].
Qed.
Lemma old_textual : textual grandfathered (fun w => exists x, In x grandfathered_tags /\ same_text x w).
Proof.
  apply textual_seal; [reflexivity|]. eapply textual_ext; [apply textual_alt; (apply textual_seal; [reflexivity|]); repeat apply textual_alt; apply same_textual|].
  intro w. unfold grandfathered_tags. split.
  - intro H. repeat match type of H with _ \/ _ => destruct H as [H|H] end; (eexists; split; [|exact H]); cbn [In]; tauto.
  - intros (x & I & H). cbn [In] in I. repeat match type of I with _ \/ _ => destruct I as [<-|I] end; tauto.
Qed.
Lemma Language_Tag_V : N_ Language_Tag language_tag_text.
Proof.
  apply n_seal; [reflexivity|]. apply n_M. eapply n_ext; [apply n_alt; [apply n_alt; [apply n_class, langtag_textual|apply n_class, private_textual]|apply n_class, old_textual]|].
  intros w v cs. unfold either, plain, language_tag_text, language_tag. split.
  - intros [[((l & E & L) & -> & ->)|((l & L & E) & -> & ->)]|(L & -> & ->)]; (split; [|auto]); eauto 6.
  - intros ([(l & E & [L|L])|L] & -> & ->); eauto 8.
Qed.
Lemma vis_tag : visible language_tag_text.
Proof. intros w v cs (_ & -> & _). discriminate. Qed.
End Lang.
