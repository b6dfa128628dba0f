(** What more symbols with parts mean: weights, ranges, directives and
    protocol names. *)
From Coq Require Import ZifyBool ZifyNat ZifyN Permutation String.
From Verif Require Import Base Earley EarleySpec Parse Grammar GrammarSem GrammarLang GrammarWF GrammarVals GrammarExcl GrammarCalc
  Syntax Actions Reading HttpText P_Grammar HttpValues SyntaxVals SyntaxDen SyntaxParts SyntaxKit.
Open Scope nat_scope.
Open Scope list_scope.
Unset Strict Implicit.
Local Open Scope string_scope.
Local Open Scope list_scope.

Lemma means_is x S : (forall nested, is_M nested x S) <-> means_as x S.
Proof.
  split; intros H nested w v cs; rewrite (H nested w v cs); split; intros [c [X P]]; exists c; (split; [exact X|now apply Permutation_sym]).
Qed.

Lemma vchar_bits c : N.testbit (bits_of VCHAR) c = is_vchar c.
Proof. revert c. octet_tac. Qed.
Lemma char_bits c : N.testbit (bits_of CHAR) c = ((1 <=? c)%N && (c <=? 127)%N).
Proof. revert c. octet_tac. Qed.
Lemma protocol_bits c : N.testbit (bits_of (minus tchar (lit "%"))) c = is_tchar c && negb (N.eqb c 37).
Proof. revert c. octet_tac. Qed.
Lemma same_token x w : forallb is_tchar (s x) && negb (Nat.eqb (List.length (s x)) 0) = true -> same_text x w -> token_text w.
Proof.
  intro E. apply andb_true_iff in E. destruct E as [F Ne]. unfold same_text, token_text, all1, all. generalize dependent (s x). intros l F Ne H. split.
  - intros ->. inversion H; subst. discriminate Ne.
  - clear Ne. induction H as [|c d l w Hc H IH]; [constructor|]. cbn [forallb] in F. apply andb_true_iff in F. destruct F as [F1 F2]. constructor; [|now apply IH].
    destruct Hc as [<-|(_ & Hd & _)]; [exact F1|]. unfold is_tchar. now rewrite Hd, orb_true_r.
Qed.

Section More.
Variable nested : pyf -> list val -> val * list vcomplaint.
Notation pf := (pyfun nested).
Notation textual := (textual rec_rules pf).
Notation M := (M rec_rules pf).
Notation V := (V rec_rules pf).
Notation A := (A rec_rules pf).
Notation is_M := (is_M nested).
Notation N_ := (SyntaxKit.N nested).

(** ** Weights *)
Lemma digits3_textual x n b p : x = Term n b -> (forall c, N.testbit b c = p c) ->
  textual (string_times_ 0 3 x) (fun w => List.length w <= 3 /\ all p w).
Proof.
  intros -> B. unfold string_times_. eapply textual_ext; [apply textual_string_times; [apply (@textual_class nested (Term n b) n b p eq_refl B)|discriminate|lia]|].
  intro w. split.
  - intros (k & [_ K] & P). apply pow_class in P. destruct P as [<- P]. auto.
  - intros [L P]. exists (List.length w). split; [split; [lia|exact L]|]. apply pow_class. auto.
Qed.
Lemma zero_textual : textual (lit "0") (fun w => exists c, w = [c] /\ N.eqb 48 c = true).
Proof. eapply textual_ext; [apply lit_textual; reflexivity|]. intro w. split; [intros ->; exists 48%N; auto|intros (c & -> & E); apply N.eqb_eq in E; now subst]. Qed.
Lemma zeros3_textual : textual (string_times_ 0 3 (lit "0")) (fun w => List.length w <= 3 /\ all (N.eqb 48) w).
Proof.
  unfold string_times_. eapply textual_ext; [apply textual_string_times; [apply zero_textual|discriminate|lia]|].
  intro w. split.
  - intros (k & [_ K] & P). apply pow_class in P. destruct P as [<- P]. auto.
  - intros [L P]. exists (List.length w). split; [split; [lia|exact L]|]. apply pow_class. auto.
Qed.
Lemma n_float x L : textual x L -> N_ (wrap FFloat x) (plain L VFloat).
Proof.
  intro T. eapply den_ext; [apply applied_V, d_text, T|]. apply rnode_ext. intros w u cs. unfold applied, rtext, plain. split.
  - intros (n & c' & k & (Lw & -> & ->) & E & ->). injection E as <- <-. auto.
  - intros (Lw & -> & ->). exists [VStr w], [], []. auto.
Qed.
Lemma fraction_textual m x L : forallb (fun c => negb (is_alpha c)) (s m) = true -> textual x L ->
  textual (add (lit m) (maybe_str (add (lit ".") x))) (fun w => w = s m \/ exists d, w = s m ++ 46%N :: d /\ L d).
Proof.
  intros Hm T. eapply textual_ext; [apply textual_add; [apply lit_textual, Hm|apply textual_maybe_str, textual_add; [apply lit_textual; reflexivity|exact T]]|].
  intro w. split.
  - intros (a & b & -> & -> & [(c & d & -> & -> & D)| ->]); [right; exists d; auto|left; apply app_nil_r].
  - intros [->|(d & -> & D)]; [exists (s m), []; rewrite app_nil_r; auto|]. exists (s m), (46%N :: d). split; [reflexivity|]. split; [reflexivity|]. left. exists [46%N], d. auto.
Qed.
Lemma quality_V n : N_ (pivot_ n (alt (wrap FFloat (add (lit "0") (maybe_str (add (lit ".") (string_times_ 0 3 DIGIT))))) (wrap FFloat (add (lit "1") (maybe_str (add (lit ".") (string_times_ 0 3 (lit "0")))))))) (plain quality VFloat).
Proof.
  apply n_seal; [reflexivity|]. apply n_M. eapply n_ext; [apply n_alt; apply n_float; apply fraction_textual; [reflexivity|apply (@digits3_textual DIGIT (Some (s "DIGIT")) (bits_of DIGIT)); [reflexivity|apply digit_bits]|reflexivity|apply zeros3_textual]|].
  intros w v cs. unfold either, plain, quality. split.
  - intros [(H & -> & ->)|(H & -> & ->)]; (split; [|auto]); destruct H as [->|(d & -> & L & D)]; auto; right; right; [left|right]; exists d; auto.
  - intros ([->|[->|[(d & -> & L & D)|(d & -> & L & D)]]] & -> & ->); [left|right|left|right]; (split; [|auto]); [left|left|right; exists d|right; exists d]; auto.
Qed.
Lemma q_gap : den (A (skip (seq2 (seq2 (seq2 OWS (lit ";")) OWS) (lit "q=")))) (gap (fun w cs => (exists a b q, ows a /\ ows b /\ same_text "q" q /\ w = a ++ 59%N :: b ++ q ++ [61%N]) /\ cs = [])).
Proof.
  eapply den_ext.
  - apply d_eph; [reflexivity|]. apply d_skip, d_seq; [apply d_eph; [reflexivity|]; apply d_seq; [apply d_eph; [reflexivity|]; apply d_seq|]|]; apply d_textA.
    + apply OWS_textual.
    + apply (@lit_textual nested ";"). reflexivity.
    + apply OWS_textual.
    + apply (same_textual nested "q=").
  - assert (Q : forall w, same_text "q=" w <-> exists q, same_text "q" q /\ w = q ++ [61%N]).
    { intro w. split.
      - intro H. inversion H as [|? q ? l H1 H2]; subst. inversion H2 as [|? e ? l' H3 H4]; subst. inversion H4; subst. exists [q]. split; [constructor; [exact H1|constructor]|].
        destruct H3 as [<-|(H3 & _)]; [reflexivity|discriminate H3].
      - intros (q & H & ->). inversion H as [|? q' ? l H1 H2]; subst. inversion H2; subst. constructor; [exact H1|constructor; [now left|constructor]]. }
    intros w ns cs. unfold gap. split.
    + intros [[n (w1 & w2 & n1 & n2 & c1 & c2 & -> & _ & -> & (w3 & w4 & n3 & n4 & c3 & c4 & -> & _ & -> & (w5 & w6 & n5 & n6 & c5 & c6 & -> & _ & -> & (O1 & _ & ->) & (-> & _ & ->)) & (O2 & _ & ->)) & (Q1 & _ & ->))] ->].
      apply Q in Q1. destruct Q1 as (q & Q1 & ->). split; [|reflexivity]. split; [|reflexivity]. exists w5, w4, q. rewrite <- !app_assoc. auto.
    + intros (((a & b & q & Oa & Ob & Hq & ->) & ->) & ->). split; [|reflexivity]. eexists. exists (a ++ s ";" ++ b), (q ++ [61%N]). do 2 eexists. exists [], []. split; [rewrite <- ?app_assoc; reflexivity|]. split; [reflexivity|]. split; [reflexivity|].
      split; [|split; [apply Q; eauto|split; reflexivity]]. exists (a ++ s ";"), b. do 2 eexists. exists [], []. split; [rewrite <- ?app_assoc; reflexivity|]. split; [reflexivity|]. split; [reflexivity|].
      split; [|split; [exact Ob|split; reflexivity]]. exists a, (s ";"). do 2 eexists. exists [], []. repeat split; auto.
Qed.
Lemma weighted_V x (S : reading) n q : visible S -> den (A x) (rnode S) -> N_ q (plain quality VFloat) ->
  N_ (wrap (class "Parametrized") (seq2 x (maybe_ (pivot_ n (seq2 (skip (seq2 (seq2 (seq2 OWS (lit ";")) OWS) (lit "q="))) q))))) (weighted S).
Proof.
  intros VS H HQ.
  assert (W : N_ (pivot_ n (seq2 (skip (seq2 (seq2 (seq2 OWS (lit ";")) OWS) (lit "q="))) q)) (gap_before (fun w cs => (exists a b q, ows a /\ ows b /\ same_text "q" q /\ w = a ++ 59%N :: b ++ q ++ [61%N]) /\ cs = []) (plain quality VFloat))).
  { apply n_seal; [reflexivity|]. apply n_M. apply seq_before; [apply q_gap|]. apply n_A, HQ. }
  eapply n_ext; [apply two_class; [exact VS| |exact H|apply n_A; apply (n_maybe VNone W)]; vis|].
  intros w v cs. split.
  - intros (w1 & w2 & v1 & v2 & c1 & c2 & -> & X & Y & -> & ->). exists w1, w2, v1. destruct Y as [(g & u & d1 & d2 & -> & ((a & b & e & Oa & Ob & E & ->) & ->) & (Qu & -> & ->) & ->)|(-> & -> & ->)]; rewrite app_nil_r; (split; [exact X|]); (split; [reflexivity|]); [right|left; auto].
    exists a, b, e, u. repeat (split; [assumption|]). split; [|reflexivity]. repeat (rewrite <- app_assoc; cbn [app]). reflexivity.
  - intros (x' & rest & u & X & -> & [(-> & ->)|(a & b & e & u' & Oa & Ob & E & Qu & -> & ->)]).
    + exists x', [], u, VNone, cs, []. rewrite !app_nil_r. repeat split; auto. right. auto.
    + exists x', (a ++ 59%N :: b ++ e ++ 61%N :: u'), u, (VFloat u'), cs, []. rewrite app_nil_r. split; [reflexivity|]. split; [exact X|]. split; [|auto]. left.
      exists (a ++ 59%N :: b ++ e ++ [61%N]), u', [], []. split; [repeat (rewrite <- app_assoc; cbn [app]); reflexivity|]. split; [|split; [split; auto|reflexivity]]. split; [|reflexivity]. exists a, b, e. auto.
Qed.
Lemma coding_V : N_ codings coding_range.
Proof.
  apply n_seal; [reflexivity|]. apply n_M. eapply n_ext; [apply n_alt; [apply n_alt; [apply n_seal; [reflexivity|]; apply n_M, n_class, token_textual|apply n_class, same_textual]|apply n_text, (@lit_textual nested "*"); reflexivity]|].
  intros w v cs. unfold either, plain, coding_range. split.
  - intros [[(T & -> & ->)|(T & -> & ->)]|(-> & -> & ->)]; [split; [left|]; auto| |split; [right|]; auto].
    split; [left; split; [now apply (@same_token "identity")|reflexivity]|reflexivity].
  - intros ([(T & ->)|(-> & ->)] & ->); [left; left|right]; auto.
Qed.
Lemma Accept_Encoding_item : is_M (wrap (class "Parametrized") (seq2 codings (maybe_ weight))) (weighted coding_range).
Proof. apply n_M, weighted_V; [intros w v cs ([(_ & ->)|(_ & ->)] & _); discriminate|apply n_A, coding_V|apply quality_V]. Qed.
Lemma Accept_Charset_item : is_M (wrap (class "Parametrized") (seq2 (alt charset (wrap (class "Charset") (literal (s "*")))) (maybe_ weight))) (weighted charset_range).
Proof.
  apply n_M, weighted_V; [intros w v cs (_ & -> & _); discriminate| |apply quality_V]. apply n_A. eapply n_ext; [apply n_alt; [apply n_seal; [reflexivity|]; apply n_M, n_class, token_textual|apply n_class, (@lit_textual nested "*"); reflexivity]|].
  intros w v cs. unfold either, plain, charset_range. split; [intros [(T & -> & ->)|(-> & -> & ->)]; [auto|]|auto]. split; [|auto]. split; [discriminate|]. constructor; [reflexivity|constructor].
Qed.

(** ** Ranges *)
Lemma bytes_V : N_ bytes_unit (plain (same_text "bytes") (named "RangeUnit")).
Proof. apply n_seal; [reflexivity|]. apply n_M, n_class, same_textual. Qed.
Lemma other_unit_V : N_ other_range_unit (plain (fun u => token_text u /\ ~ same_text "bytes" u) (named "RangeUnit")).
Proof.
  apply n_seal; [reflexivity|]. apply n_M. eapply n_ext; [apply n_class, (@excluding_tokens nested ["bytes"]); reflexivity|]. intros w v cs. unfold plain.
  assert (E : (exists x, In x ["bytes"] /\ same_text x w) <-> same_text "bytes" w) by (split; [intros (x & [<-|[]] & H); exact H|intro H; exists "bytes"; split; [now left|exact H]]). rewrite E. tauto.
Qed.
Lemma digits_V n : N_ (auto_ n (wrap FInt (string1 DIGIT))) (plain (all1 is_digit) number).
Proof. apply n_seal; [reflexivity|]. apply n_M, n_digits. Qed.
Lemma spec_V : N_ byte_range_spec (fun w v cs =>
  (exists a, all1 is_digit a /\ w = a ++ [45%N] /\ v = VTuple [number a; VNone] /\ cs = []) \/
  (exists a b, all1 is_digit a /\ all1 is_digit b /\ w = a ++ 45%N :: b /\ v = VTuple [number a; number b] /\
     ((decimal b < decimal a)%N /\ cs = [(1133%N, [])] \/ (decimal a <= decimal b)%N /\ cs = []))).
Proof.
  apply n_seal; [reflexivity|]. apply n_M.
  assert (P : den (V (seq2 (seq2 first_byte_pos (skip (lit "-"))) (maybe_ last_byte_pos))) (fun w ns cs => exists v1 v2, ns = [v1; v2] /\
    two (fun a b => VTuple [a; b]) (after (plain (all1 is_digit) number) (s "-")) (optional (plain (all1 is_digit) number) VNone) w (VTuple [v1; v2]) cs)).
  { apply pair_V; [vis|vis| |apply n_A, n_maybe, digits_V]. apply n_A, mark_after; [reflexivity|]. apply n_A, digits_V. }
  eapply n_ext; [apply applied_V, P|]. intros w v cs. unfold applied. split.
  - intros (ns & c & k & (v1 & v2 & -> & (w1 & w2 & u1 & u2 & c1 & c2 & -> & (a & -> & (Da & -> & ->)) & Y & E & ->)) & Q & ->). injection E as -> ->.
    destruct Y as [(Db & -> & ->)|(-> & -> & ->)].
    + right. exists a, w2. split; [exact Da|]. split; [exact Db|]. split; [now rewrite <- app_assoc|]. unfold number in Q. cbn [call_func pyfun] in Q.
      destruct (Z.ltb_spec (Z.of_N (decimal w2)) (Z.of_N (decimal a))); injection Q as <- <-; (split; [reflexivity|]); [left|right]; (split; [lia|reflexivity]).
    + left. exists a. split; [exact Da|]. unfold number in Q. cbn [call_func pyfun] in Q. injection Q as <- <-. rewrite app_nil_r. auto.
  - intros [(a & Da & -> & -> & ->)|(a & b & Da & Db & -> & -> & Q)].
    + exists [number a; VNone], [], []. split; [|split; reflexivity]. exists (number a), VNone. split; [reflexivity|]. exists (a ++ [45%N]), [], (number a), VNone, [], []. rewrite app_nil_r. repeat split; [|right; auto]. exists a. split; [reflexivity|]. repeat split; auto; apply Da.
    + exists [number a; number b], [], cs. split; [|split; [|reflexivity]].
      * exists (number a), (number b). split; [reflexivity|]. exists (a ++ [45%N]), b, (number a), (number b), [], []. rewrite <- app_assoc. split; [reflexivity|]. split; [exists a; split; [reflexivity|]; split; auto|]. split; [left; split; auto|auto].
      * unfold number. cbn [call_func pyfun]. destruct (Z.ltb_spec (Z.of_N (decimal b)) (Z.of_N (decimal a))); destruct Q as [[L ->]|[L ->]]; try reflexivity; lia.
Qed.
Lemma range_spec_V : N_ (alt byte_range_spec suffix_byte_range_spec) byte_range_text.
Proof.
  assert (X : N_ suffix_byte_range_spec (fun w v cs => exists n, all1 is_digit n /\ w = 45%N :: n /\ v = VTuple [VNone; number n] /\ cs = [])).
  { apply n_seal; [reflexivity|]. apply n_M. eapply n_py; [|apply mark_before; [reflexivity|]; apply n_A, digits_V|]; [vis|]. intros w v cs. split.
    - intros (n & D & -> & -> & ->). exists (number n), [], []. split; [|split; reflexivity]. exists n. split; [reflexivity|]. split; auto.
    - intros (u & c & k & (n & -> & (D & -> & ->)) & E & ->). injection E as <- <-. exists n. auto. }
  eapply n_ext; [apply (n_alt spec_V X)|]. intros w v cs. unfold either, byte_range_text. tauto.
Qed.
End More.

Lemma range_list : is_proper (comma_list1 (alt byte_range_spec suffix_byte_range_spec)) /\ means_as (comma_list1 (alt byte_range_spec suffix_byte_range_spec)) (list_spec byte_range_text list1_shape).
Proof.
  refine (proj2 (@lists_mean (alt byte_range_spec suffix_byte_range_spec) byte_range_text eq_refl _ _)).
  - apply means_is. intro nested. apply n_M, range_spec_V.
  - intros w v cs [(a & _ & _ & -> & _)|[(a & b & _ & _ & _ & -> & _)|(n & _ & _ & -> & _)]]; split; discriminate.
Qed.

(** ** Percent-encoding *)
Lemma hex_digit_spec c n : hex_digit c = Some n <-> any_hex n c.
Proof.
  unfold hex_digit, any_hex, upper_hex. destruct ((48 <=? c) && (c <=? 57))%N eqn:E1; [split; [intro H; injection H as <-; lia|intro H; f_equal; lia]|].
  destruct ((65 <=? c) && (c <=? 70))%N eqn:E2; [split; [intro H; injection H as <-; lia|intro H; f_equal; lia]|].
  destruct ((97 <=? c) && (c <=? 102))%N eqn:E3; [split; [intro H; injection H as <-; lia|intro H; f_equal; lia]|]. split; [discriminate|lia].
Qed.
Lemma pct_decodes n : forall x, List.length x <= n -> decodes x (pct_decode x).
Proof.
  induction n as [|n IH]; intros [|c x] L; cbn [List.length] in L; try lia; try constructor. cbn [pct_decode]. destruct (N.eqb_spec c 37) as [->|Nc]; [|constructor; [exact Nc|apply IH; lia]].
  destruct x as [|h [|l y]]; cbn [List.length] in L.
  - apply decodes_stray; [|apply IH; cbn; lia]. intros (a & b & h & l & y & _ & _ & E). discriminate.
  - apply decodes_stray; [|apply IH; cbn [List.length]; lia]. intros (a & b & h' & l & y & _ & _ & E). discriminate.
  - destruct (hex_digit h) as [a|] eqn:Ea; [destruct (hex_digit l) as [b|] eqn:Eb|].
    + apply decodes_pct; [now apply hex_digit_spec|now apply hex_digit_spec|apply IH; lia].
    + apply decodes_stray; [|apply IH; cbn [List.length]; lia]. intros (a' & b' & h' & l' & y' & _ & B & E). injection E as -> -> ->. apply hex_digit_spec in B. congruence.
    + apply decodes_stray; [|apply IH; cbn [List.length]; lia]. intros (a' & b' & h' & l' & y' & B & _ & E). injection E as -> -> ->. apply hex_digit_spec in B. congruence.
Qed.
Lemma decodes_unique x b : decodes x b -> b = pct_decode x.
Proof.
  intro H. induction H as [|c x b Nc H IH|hi lo h l x b Hh Hl H IH|x b NH H IH]; [reflexivity| | |].
  - cbn [pct_decode]. destruct (N.eqb_spec c 37); [contradiction|]. now rewrite <- IH.
  - cbn [pct_decode]. rewrite N.eqb_refl. apply hex_digit_spec in Hh. apply hex_digit_spec in Hl. now rewrite Hh, Hl, <- IH.
  - cbn [pct_decode]. rewrite N.eqb_refl. rewrite <- IH. destruct x as [|h [|l y]]; [reflexivity|reflexivity|].
    destruct (hex_digit h) as [a|] eqn:Ea; [|reflexivity]. destruct (hex_digit l) as [b'|] eqn:Eb; [|reflexivity]. destruct NH. exists a, b', h, l, y. now rewrite <- !hex_digit_spec.
Qed.
Lemma decodes_small x : Forall (fun c => (c < 256)%N) x -> Forall (fun c => (c < 256)%N) (pct_decode x).
Proof.
  intro F. pose proof (@pct_decodes (List.length x) x (le_n _)) as D. revert F D. generalize (pct_decode x) as b. intros b F D. induction D as [|c x b Nc H IH|hi lo h l x b Hh Hl H IH|x b NH H IH]; [constructor| | |].
  - inversion F; subst. constructor; auto.
  - inversion F as [|? ? _ F1]; subst. inversion F1 as [|? ? _ F2]; subst. inversion F2; subst. constructor; [|auto]. unfold any_hex, upper_hex in *. lia.
  - inversion F; subst. constructor; [lia|auto].
Qed.
Lemma hex_char_spec n : (n < 16)%N -> upper_hex n (hex_char n).
Proof. intro L. unfold upper_hex, hex_char. destruct (N.ltb_spec n 10); lia. Qed.
Lemma upper_unique n c d : upper_hex n c -> upper_hex n d -> c = d.
Proof. unfold upper_hex. lia. Qed.
Lemma encode_proper bs : Forall (fun c => (c < 256)%N) bs -> proper_encoding bs (encode_protocol_id bs).
Proof.
  intro F. induction F as [|b bs L F IH]; [constructor|]. unfold encode_protocol_id in *. cbn [flat_map]. constructor; [|exact IH]. rewrite protocol_bits. unfold proper_byte.
  destruct (is_tchar b) eqn:T; cbn [andb]; [destruct (N.eqb_spec b 37) as [->|Nb]; cbn [negb]|]; [right; split; [auto|]|left; auto|right; split; [auto|]].
  - exists 2%N, 5%N, 50%N, 53%N. split; [reflexivity|]. unfold upper_hex. split; [lia|]. split; [lia|reflexivity].
  - exists (b / 16)%N, (b mod 16)%N, (hex_char (b / 16)), (hex_char (b mod 16)). split; [apply N.div_mod'|]. assert (b / 16 < 16)%N by (apply N.div_lt_upper_bound; lia). assert (b mod 16 < 16)%N by (apply N.mod_lt; lia).
    split; [now apply hex_char_spec|]. split; [now apply hex_char_spec|reflexivity].
Qed.
Lemma proper_unique bs x : proper_encoding bs x -> x = encode_protocol_id bs.
Proof.
  intro H. induction H as [|b x bs xs B _ IH]; [reflexivity|]. unfold encode_protocol_id in *. cbn [flat_map]. rewrite <- IH. f_equal. rewrite protocol_bits.
  destruct B as [(T & Nb & ->)|(T & hi & lo & h & l & E & Hh & Hl & ->)].
  - rewrite T. destruct (N.eqb_spec b 37); [contradiction|reflexivity].
  - assert (C : is_tchar b && negb (N.eqb b 37) = false) by (destruct T as [->| ->]; [reflexivity|now rewrite andb_comm]). rewrite C.
    assert (hi < 16)%N by (unfold upper_hex in Hh; lia). assert (lo < 16)%N by (unfold upper_hex in Hl; lia).
    assert (D : (b / 16 = hi)%N) by (subst b; rewrite N.mul_comm, N.div_add_l, N.div_small by lia; lia).
    assert (D' : (b mod 16 = lo)%N) by (subst b; rewrite N.add_comm, N.mul_comm, N.mod_add, N.mod_small by lia; reflexivity).
    unfold pct_encode. rewrite D, D'. rewrite (upper_unique Hh (hex_char_spec H)), (upper_unique Hl (hex_char_spec H0)). reflexivity.
Qed.
Lemma token_small w : token_text w -> Forall (fun c => (c < 256)%N) w.
Proof.
  intros [_ F]. eapply Forall_impl; [|exact F]. intros c T. destruct (N.ltb_spec c 256) as [L|L]; [exact L|]. exfalso.
  assert (X : is_tchar c = false); [|congruence]. unfold is_tchar, is_digit, is_alpha. rewrite (fun l H => @among_bound l H c L) by reflexivity. lia.
Qed.

Section Ranges.
Variable nested : pyf -> list val -> val * list vcomplaint.
Notation pf := (pyfun nested).
Notation textual := (textual rec_rules pf).
Notation M := (M rec_rules pf).
Notation V := (V rec_rules pf).
Notation A := (A rec_rules pf).
Notation is_M := (is_M nested).
Notation N_ := (SyntaxKit.N nested).

Lemma Range_M : is_M Range range_text.
Proof.
  apply d_seal, n_M. eapply n_ext; [apply n_alt|].
  - apply n_seal; [reflexivity|]. apply n_M, two_class; [| |apply n_A, mark_after; [reflexivity|]; apply n_A, bytes_V|apply n_A, n_seal; [reflexivity|]; apply (proj2 (means_is _ _) (proj2 range_list))].
    + vis.
    + intros w v cs (ps & _ & _ & _ & -> & _). discriminate.
  - apply n_seal; [reflexivity|]. apply n_M, two_class; [| |apply n_A, mark_after; [reflexivity|]; apply n_A, other_unit_V|apply n_A, n_seal; [reflexivity|]; apply n_M, n_text, (@textual_string1_class nested VCHAR (Some (s "VCHAR")) (bits_of VCHAR)); [reflexivity|apply vchar_bits]]; vis.
  - intros w v cs. unfold either, range_text. split.
    + intros [(w1 & w2 & v1 & v2 & c1 & c2 & -> & (u & -> & (U & -> & ->)) & Y & -> & ->)|(w1 & w2 & v1 & v2 & c1 & c2 & -> & (u & -> & ((U & NU) & -> & ->)) & (Y & -> & ->) & -> & ->)]; exists u, w2.
      * exists v2. rewrite <- app_assoc. auto.
      * exists (VStr w2). rewrite <- app_assoc. split; [reflexivity|]. split; [reflexivity|]. right. auto.
    + intros (u & x & r & -> & -> & [(U & Y)|(U & NU & Y & -> & ->)]); [left|right].
      * exists (u ++ s "="), x, (named "RangeUnit" u), r, [], cs. rewrite <- app_assoc. split; [reflexivity|]. split; [exists u; split; [reflexivity|]; split; auto|]. auto.
      * exists (u ++ s "="), x, (named "RangeUnit" u), (VStr x), [], []. rewrite <- app_assoc. split; [reflexivity|]. split; [exists u; split; [reflexivity|]; split; auto|]. split; [split; auto|]. auto.
Qed.
Lemma tuple_V n x y S1 S2 p : visible S1 -> visible S2 -> den (A x) (rnode S1) -> den (A y) (rnode S2) -> N_ (seal n p (seq2 x y)) (two (fun a b => VTuple [a; b]) S1 S2).
Proof. intros V1 V2 H1 H2. apply n_seal; [reflexivity|]. now apply two_M. Qed.
Lemma n_after x S m : N_ x S -> forallb (fun c => negb (is_alpha c)) (s m) = true -> den (A (seq2 x (skip (lit m)))) (rnode (after S (s m))).
Proof. intros H E. apply n_A, mark_after; [exact E|]. now apply n_A. Qed.
Lemma byte_range_V : N_ byte_range (two (fun a b => VTuple [a; b]) (after (plain (all1 is_digit) number) (s "-")) (plain (all1 is_digit) number)).
Proof. apply tuple_V; [vis|vis|apply n_after; [apply digits_V|reflexivity]|apply n_A, digits_V]. Qed.
Lemma star_textual x : forallb (fun c => negb (is_alpha c)) (s x) = true -> textual (literal (s x)) (fun w => w = s x).
Proof. intro H. exact (lit_textual nested H). Qed.
Lemma byte_range_resp_V : N_ byte_range_resp (two (fun a b => VTuple [a; b]) (after (two (fun a b => VTuple [a; b]) (after (plain (all1 is_digit) number) (s "-")) (plain (all1 is_digit) number)) (s "/"))
  (either (plain (all1 is_digit) number) (plain (fun w => w = s "*") (fun _ => VNone)))).
Proof. apply tuple_V; [vis|vis|apply n_after; [apply byte_range_V|reflexivity]|apply n_A, n_alt; [apply digits_V|apply n_subst, star_textual; reflexivity]]. Qed.
Lemma unsatisfied_V : N_ unsatisfied_range (two (fun a b => VTuple [a; b]) (plain (fun w => w = s "*/") (fun _ => VNone)) (plain (all1 is_digit) number)).
Proof. apply tuple_V; [vis|vis|apply n_A, n_subst, star_textual; reflexivity|apply n_A, digits_V]. Qed.
Definition byte_resp : reading := fun x r cs =>
  (exists a b n, all1 is_digit a /\ all1 is_digit b /\ all1 is_digit n /\ x = a ++ 45%N :: b ++ 47%N :: n /\ r = VTuple [VTuple [number a; number b]; number n] /\ cs = []) \/
  (exists a b, all1 is_digit a /\ all1 is_digit b /\ x = a ++ 45%N :: b ++ [47%N; 42%N] /\ r = VTuple [VTuple [number a; number b]; VNone] /\ cs = []) \/
  (exists n, all1 is_digit n /\ x = 42%N :: 47%N :: n /\ r = VTuple [VNone; number n] /\ cs = []).
Lemma byte_resp_V : N_ (alt byte_range_resp unsatisfied_range) byte_resp.
Proof.
  eapply n_ext; [apply (n_alt byte_range_resp_V unsatisfied_V)|]. intros w v cs. unfold either, byte_resp. split.
  - intros [(w1 & w2 & v1 & v2 & c1 & c2 & -> & (x & -> & (w3 & w4 & v3 & v4 & c3 & c4 & -> & (a & -> & (Da & -> & ->)) & (Db & -> & ->) & -> & ->)) & [(Dn & -> & ->)|(-> & -> & ->)] & -> & ->)|(w1 & w2 & v1 & v2 & c1 & c2 & -> & (-> & -> & ->) & (D & -> & ->) & -> & ->)].
    + left. exists a, w4, w2. repeat (rewrite <- app_assoc; cbn [app]). auto 8.
    + right. left. exists a, w4. repeat (rewrite <- app_assoc; cbn [app]). auto 8.
    + right. right. exists w2. auto.
  - intros [(a & b & n & Da & Db & Dn & -> & -> & ->)|[(a & b & Da & Db & -> & -> & ->)|(n & D & -> & -> & ->)]]; [left|left|right].
    + exists (a ++ 45%N :: b ++ [47%N]), n, (VTuple [number a; number b]), (number n), [], []. split; [repeat (rewrite <- app_assoc; cbn [app]); reflexivity|]. split; [|split; [left; split; auto|auto]].
      exists (a ++ 45%N :: b). split; [repeat (rewrite <- app_assoc; cbn [app]); reflexivity|]. exists (a ++ [45%N]), b, (number a), (number b), [], []. split; [rewrite <- app_assoc; reflexivity|]. split; [exists a; split; [reflexivity|split; auto]|]. split; [split; auto|auto].
    + exists (a ++ 45%N :: b ++ [47%N]), [42%N], (VTuple [number a; number b]), VNone, [], []. split; [repeat (rewrite <- app_assoc; cbn [app]); reflexivity|]. split; [|split; [right; split; auto|auto]].
      exists (a ++ 45%N :: b). split; [repeat (rewrite <- app_assoc; cbn [app]); reflexivity|]. exists (a ++ [45%N]), b, (number a), (number b), [], []. split; [rewrite <- app_assoc; reflexivity|]. split; [exists a; split; [reflexivity|split; auto]|]. split; [split; auto|auto].
    + exists [42%N; 47%N], n, VNone, (number n), [], []. split; [reflexivity|]. split; [split; auto|]. split; [split; auto|auto].
Qed.
Lemma sp_gap : den (A (skip SP)) (gap (fun w cs => w = [32%N] /\ cs = [])).
Proof.
  apply g_skip. eapply textual_ext; [apply (@textual_class nested SP (Some (s "SP")) (bits_of SP) (N.eqb 32)); [reflexivity|octet_tac]|].
  intro w. split; [intros (c & -> & E); apply N.eqb_eq in E; now subst|intros ->; exists 32%N; auto].
Qed.
Lemma sp_after x S : N_ x S -> N_ (seq2 x (skip SP)) (after S [32%N]).
Proof.
  intro H. eapply n_ext; [apply (seq_after (n_A H) sp_gap)|]. intros w v cs. unfold gap_after, after. split.
  - intros (g & u & c1 & c2 & -> & X & (-> & ->) & ->). rewrite app_nil_r. eauto.
  - intros (u & -> & X). exists u, [32%N], cs, []. rewrite app_nil_r. auto.
Qed.
Lemma vis_resp : visible byte_resp.
Proof. intros w v cs [(a & b & n & _ & _ & _ & _ & -> & _)|[(a & b & _ & _ & _ & -> & _)|(n & _ & _ & -> & _)]]; discriminate. Qed.
Lemma Content_Range_M : is_M Content_Range content_range_text.
Proof.
  apply d_seal, n_M. eapply n_ext; [apply n_alt|].
  - apply n_seal; [reflexivity|]. apply n_M. apply (@n_py nested _ _ (two (fun a b => VObj (s "ContentRange") [a; b]) (after (plain (same_text "bytes") (named "RangeUnit")) [32%N]) byte_resp)
      (fun w v cs => exists u r c k, two (fun a b => VObj (s "ContentRange") [a; b]) (after (plain (same_text "bytes") (named "RangeUnit")) [32%N]) byte_resp w u c /\ call_func pf (FPy PWellFormed2) [u] = (r, k) /\ v = r /\ cs = c ++ k)).
    + vis.
    + apply two_class; [vis|apply vis_resp|apply n_A, sp_after, bytes_V|apply n_A, byte_resp_V].
    + intros w v cs. split; [intros (u & r & c & k & X & E & -> & ->)|intros (u & c & k & X & E & ->)]; [exists u, c, k|exists u, v, c, k]; auto.
  - apply n_seal; [reflexivity|]. apply n_M, two_class; [| |apply n_A, sp_after, other_unit_V|apply n_A, n_seal; [reflexivity|]; apply n_M, n_text, (@textual_string_class nested CHAR (Some (s "CHAR")) (bits_of CHAR)); [reflexivity|apply char_bits]]; vis.
  - intros w v cs. unfold either, content_range_text. split.
    + intros [(o & r & c & k & (w1 & w2 & v1 & v2 & c1 & c2 & -> & (u & -> & (U & -> & ->)) & Y & -> & ->) & E & -> & ->)|(w1 & w2 & v1 & v2 & c1 & c2 & -> & (u & -> & ((U & NU) & -> & ->)) & (Y & -> & ->) & -> & ->)]; exists u, w2.
      * exists v2. rewrite <- app_assoc. split; [reflexivity|]. cbn [call_func] in E.
        destruct Y as [(a & b & n & Da & Db & Dn & -> & -> & ->)|[(a & b & Da & Db & -> & -> & ->)|(n & D & -> & -> & ->)]]; unfold number in E; cbn [pyfun] in E; injection E as <- <-; (split; [reflexivity|]); left; (split; [exact U|]).
        -- left. exists a, b, n. repeat (split; [assumption || reflexivity|]). destruct ((Z.of_N (decimal b) <? Z.of_N (decimal a))%Z || (Z.of_N (decimal n) <=? Z.of_N (decimal b))%Z) eqn:Q; [left|right]; (split; [lia|reflexivity]).
        -- right. left. exists a, b. repeat (split; [assumption || reflexivity|]). destruct (Z.of_N (decimal b) <? Z.of_N (decimal a))%Z eqn:Q; [left|right]; (split; [lia|reflexivity]).
        -- right. right. exists n. auto.
      * exists (VStr w2). rewrite <- app_assoc. split; [reflexivity|]. split; [reflexivity|]. right. auto.
    + intros (u & x & r & -> & -> & [(U & Y)|(U & NU & Y & -> & ->)]); [left|right].
      * exists (VObj (s "ContentRange") [named "RangeUnit" u; r]), (VObj (s "ContentRange") [named "RangeUnit" u; r]), [], cs.
        assert (B : byte_resp x r [] /\ call_func pf (FPy PWellFormed2) [VObj (s "ContentRange") [named "RangeUnit" u; r]] = (VObj (s "ContentRange") [named "RangeUnit" u; r], cs)).
        { cbn [call_func]. destruct Y as [(a & b & n & Da & Db & Dn & -> & -> & Q)|[(a & b & Da & Db & -> & -> & Q)|(n & D & -> & -> & ->)]]; unfold number; cbn [pyfun]; split.
          - left. exists a, b, n. auto 8.
          - destruct ((Z.of_N (decimal b) <? Z.of_N (decimal a))%Z || (Z.of_N (decimal n) <=? Z.of_N (decimal b))%Z) eqn:R; destruct Q as [[Q ->]|[Q ->]]; try reflexivity; lia.
          - right. left. exists a, b. auto 8.
          - destruct (Z.of_N (decimal b) <? Z.of_N (decimal a))%Z eqn:R; destruct Q as [[Q ->]|[Q ->]]; try reflexivity; lia.
          - right. right. exists n. auto.
          - reflexivity. }
        destruct B as [B1 B2]. split; [|split; [exact B2|auto]]. exists (u ++ [32%N]), x, (named "RangeUnit" u), r, [], []. rewrite <- app_assoc. split; [reflexivity|]. split; [exists u; split; [reflexivity|]; split; auto|]. auto.
      * exists (u ++ [32%N]), x, (named "RangeUnit" u), (VStr x), [], []. rewrite <- app_assoc. split; [reflexivity|]. split; [exists u; split; [reflexivity|]; split; auto|]. split; [split; auto|]. auto.
Qed.

(** ** Directives *)
Lemma n_mark m x S : visible S -> N_ x S -> N_ (mark (s m) x) (fun w v cs => exists u, S w u cs /\ v = VTuple [VStr (s m); u]).
Proof.
  intros VS H. apply (n_py (F := FMark (s m)) VS H). intros w v cs. split.
  - intros (u & X & ->). exists u, cs, []. rewrite app_nil_r. auto.
  - intros (u & c & k & X & E & ->). injection E as <- <-. rewrite app_nil_r. eauto.
Qed.
Lemma quoted_V : N_ quoted_string quoted_text.
Proof. apply d_nodeV; [reflexivity|apply quoted_M]. Qed.
Lemma vis_quoted : visible quoted_text.
Proof. intros w v cs H. apply quoted_visible in H. destruct H as [x ->]. discriminate. Qed.
Definition marked : reading := fun x u cs => exists y, token_text x /\ y = VStr x /\ cs = [] /\ u = VTuple [VStr (s "token"); y] \/ quoted_text x y cs /\ u = VTuple [VStr (s "quoted-string"); y].
Lemma marked_V : N_ (alt (mark (s "token") token) (mark (s "quoted-string") quoted_string)) marked.
Proof.
  eapply n_ext; [apply n_alt; [apply n_mark; [|apply n_text, token_textual]|apply n_mark; [apply vis_quoted|apply quoted_V]]; vis|]. intros w v cs. unfold either, plain, marked, token_text. split.
  - intros [(u & (T & -> & ->) & ->)|(u & Q & ->)]; [exists (VStr w)|exists u]; auto.
  - intros (y & [(T & -> & -> & ->)|(Q & ->)]); [left; exists (VStr w)|right; exists y]; auto.
Qed.
Lemma vis_marked : visible marked.
Proof. intros w v cs (y & [(_ & _ & _ & ->)|(_ & ->)]); discriminate. Qed.
Lemma directive_M : is_M cache_directive (directive_text "CacheDirective").
Proof.
  apply d_seal, n_M. eapply n_ext; [apply two_class; [| |apply n_A, n_class, token_textual|apply n_A, n_maybe, mark_before; [reflexivity|]; apply n_A, marked_V]; vis; apply vis_marked|].
  intros w v cs. unfold directive_text. split.
  - intros (w1 & w2 & v1 & v2 & c1 & c2 & -> & (T & -> & ->) & Y & -> & ->). exists w1, w2, v2. split; [exact T|]. split; [reflexivity|]. split; [reflexivity|].
    destruct Y as [(x & -> & (y & Y))|(-> & -> & ->)]; [right; exists x, y; auto|left; auto].
  - intros (name & rest & u & T & -> & -> & Y). exists name, rest, (named "CacheDirective" name), u, [], cs. split; [reflexivity|]. split; [split; auto|]. split; [|auto].
    destruct Y as [(-> & -> & ->)|(x & y & -> & Y)]; [right; auto|left]. exists x. split; [reflexivity|]. exists y. exact Y.
Qed.
Lemma protocol_M : is_M protocol_id protocol_text.
Proof.
  apply d_seal, n_M. apply (n_py (F := FPy PCheckProtocolId) (S := plain token_text VStr)); [vis|apply n_text, token_textual|].
  intros w v cs. unfold protocol_text. split.
  - intros (T & bytes & correct & D & E & -> & C). exists (VStr w), [], cs. split; [split; auto|]. split; [|reflexivity]. cbn [call_func pyfun]. unfold check_protocol_id.
    apply decodes_unique in D. apply proper_unique in E. rewrite <- D, <- E. destruct (str_eqb w correct) eqn:Q; [apply str_eqb_eq in Q; destruct C as [[_ ->]|[C _]]; [reflexivity|contradiction]|].
    destruct C as [[-> _]|[_ ->]]; [now rewrite str_eqb_refl in Q|reflexivity].
  - intros (u & c & k & (T & -> & ->) & E & ->). cbn [call_func pyfun] in E. unfold check_protocol_id in E. split; [exact T|]. exists (pct_decode w), (encode_protocol_id (pct_decode w)).
    split; [now apply (@pct_decodes (List.length w))|]. split; [apply encode_proper, decodes_small, token_small, T|]. injection E as <- <-. split; [reflexivity|]. cbn [app].
    destruct (str_eqb w (encode_protocol_id (pct_decode w))) eqn:Q; [left; apply str_eqb_eq in Q; auto|right]. split; [|reflexivity]. intro X. rewrite <- X, str_eqb_refl in Q. discriminate Q.
Qed.
End Ranges.
