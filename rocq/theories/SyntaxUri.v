(** What the symbols for hosts and URIs (httpolice/syntax/rfc3986.py) mean:
    their values are their texts, and the texts are those of UriText.v. *)
From Coq Require Import ZifyBool ZifyNat ZifyN Permutation String.
From Verif Require Import Base Earley EarleySpec Parse Grammar GrammarSem GrammarLang GrammarWF GrammarVals GrammarExcl GrammarCalc
  Syntax Actions Reading HttpText P_Grammar HttpValues SyntaxVals SyntaxDen SyntaxParts SyntaxKit SyntaxMore UriText.
Open Scope nat_scope.
Open Scope list_scope.
Unset Strict Implicit.
Local Open Scope string_scope.
Local Open Scope list_scope.

(** ** Languages *)
Definition one (p : BinNums.N -> bool) (w : str) : Prop := exists c, w = [c] /\ p c = true.
Definition piece (p : BinNums.N -> bool) (w : str) : Prop := one p w \/ exists h l, w = [37%N; h; l] /\ is_hex h = true /\ is_hex l = true.
Lemma encoded_pow p w : (exists n, pow n (piece p) w) <-> encoded p w.
Proof.
  split.
  - intros [n H]. revert w H. induction n as [|n IH]; intros w H; cbn [pow] in H; [rewrite H; constructor|].
    destruct H as (u & v & -> & [(c & -> & P)|(h & l & -> & Hh & Hl)] & H); cbn [app]; [apply encoded_char|apply encoded_pct]; auto.
  - induction 1 as [|c w P E [n H]|h l w Hh Hl E [n H]]; [exists 0; reflexivity| |]; exists (S n); cbn [pow].
    + exists [c], w. split; [reflexivity|]. split; [left; exists c; auto|exact H].
    + exists [37%N; h; l], w. split; [reflexivity|]. split; [right; exists h, l; auto|exact H].
Qed.
Lemma piece_full p w : piece p w -> w <> [].
Proof. intros [(c & -> & _)|(h & l & -> & _)]; discriminate. Qed.
Lemma encoded_pow1 p w : (exists n, 1 <= n /\ pow n (piece p) w) <-> w <> [] /\ encoded p w.
Proof.
  split.
  - intros (n & L & H). split; [|apply encoded_pow; eauto]. destruct n as [|n]; [lia|]. cbn [pow] in H. destruct H as (u & v & -> & P & _). apply piece_full in P. destruct u; [now destruct P|discriminate].
  - intros (Nw & E). apply encoded_pow in E. destruct E as [[|n] H]; [now destruct Nw|]. exists (S n). split; [lia|exact H].
Qed.
Lemma encoded_app p u v : encoded p u -> encoded p v -> encoded p (u ++ v).
Proof. induction 1; intro E; cbn [app]; [exact E|apply encoded_char|apply encoded_pct]; auto. Qed.
Lemma encoded_impl (p q : BinNums.N -> bool) w : (forall c, p c = true -> q c = true) -> encoded p w -> encoded q w.
Proof. intros I E. induction E; [constructor|apply encoded_char|apply encoded_pct]; auto. Qed.
Lemma encoded_all (p : BinNums.N -> bool) w : all p w -> encoded p w.
Proof. induction 1; [constructor|apply encoded_char]; auto. Qed.
Lemma piece_or p q w : piece p w \/ one q w <-> piece (fun c => p c || q c) w.
Proof.
  unfold piece, one. split.
  - intros [[(c & -> & P)|H]|(c & -> & Q)]; [left; exists c; rewrite P; auto|now right|left; exists c; rewrite Q, orb_true_r; auto].
  - intros [(c & -> & P)|H]; [|auto]. apply orb_true_iff in P. destruct P as [P|Q]; [left; left|right]; eauto.
Qed.

Lemma is_hex_bits c : N.testbit (bits_of HEXDIG) c = is_hex c.
Proof. revert c. unfold is_hex. octet_tac. Qed.
Lemma unreserved_bits c : N.testbit (bits_of unreserved) c = is_unreserved c.
Proof. revert c. unfold is_unreserved. octet_tac. Qed.
Lemma reg_bits c : N.testbit (bits_of (alt unreserved sub_delims)) c = is_unreserved c || is_sub_delim c.
Proof. revert c. unfold is_unreserved, is_sub_delim. octet_tac. Qed.
Lemma user_bits c : N.testbit (bits_of (alt (alt unreserved sub_delims) (lit ":"))) c = is_unreserved c || is_sub_delim c || (c =? 58)%N.
Proof. revert c. unfold is_unreserved, is_sub_delim. octet_tac. Qed.
Lemma nc_bits c : N.testbit (bits_of (alt (alt unreserved sub_delims) (lit "@"))) c = is_unreserved c || is_sub_delim c || (c =? 64)%N.
Proof. revert c. unfold is_unreserved, is_sub_delim. octet_tac. Qed.
Lemma pchar_bits c : N.testbit (bits_of (alt (alt (alt unreserved sub_delims) (lit ":")) (lit "@"))) c = is_pchar c.
Proof. revert c. unfold is_pchar, is_unreserved, is_sub_delim. octet_tac. Qed.
Lemma scheme_bits c : N.testbit (bits_of (alt (alt (alt (alt ALPHA DIGIT) (lit "+")) (lit "-")) (lit "."))) c = is_alpha c || is_digit c || HttpText.among (s "+-.") c.
Proof. revert c. octet_tac. Qed.
Lemma hex_digit_range c : is_hex c = true -> (c < 256)%N.
Proof. unfold is_hex, is_digit. lia. Qed.

Section Uri.
Variable nested : pyf -> list val -> val * list vcomplaint.
Notation pf := (pyfun nested).
Notation textual := (textual rec_rules pf).
Notation M := (M rec_rules pf).
Notation V := (V rec_rules pf).
Notation A := (A rec_rules pf).
Notation is_M := (is_M nested).
Notation N_ := (SyntaxKit.N nested).

Lemma lit1 x : forallb (fun c => negb (is_alpha c)) (s x) = true -> textual (lit x) (fun w => w = s x).
Proof. apply lit_textual. Qed.
Lemma class_one x n b p : x = Term n b -> (forall c, N.testbit b c = p c) -> textual x (one p).
Proof. apply textual_class. Qed.

Lemma hex_textual : textual HEXDIG (one is_hex).
Proof. apply (@class_one HEXDIG (Some (s "HEXDIG")) (bits_of HEXDIG)); [reflexivity|apply is_hex_bits]. Qed.
Lemma pct_textual : textual pct_encoded (fun w => exists h l, w = [37%N; h; l] /\ is_hex h = true /\ is_hex l = true).
Proof.
  apply textual_seal; [reflexivity|]. eapply textual_ext; [apply textual_add; [apply textual_add; [apply (@lit1 "%"); reflexivity|apply hex_textual]|apply hex_textual]|].
  intro w. split.
  - intros (x & y & -> & (a & b & -> & -> & (h & -> & Hh)) & (l & -> & Hl)). exists h, l. auto.
  - intros (h & l & -> & Hh & Hl). exists [37%N; h], [l]. split; [reflexivity|]. split; [|exists l; auto]. exists [37%N], [h]. split; [reflexivity|]. split; [reflexivity|]. exists h; auto.
Qed.
Lemma piece_textual x n b p : x = Term n b -> (forall c, N.testbit b c = p c) -> textual (alt x pct_encoded) (piece p).
Proof. intros E B. apply textual_alt; [now apply (@class_one x n b p)|apply pct_textual]. Qed.
Lemma encoded_textual x p : textual x (piece p) -> textual (string_ x) (encoded p).
Proof. intro T. eapply textual_ext; [apply textual_string; exact T|apply encoded_pow]. Qed.
Lemma encoded1_textual x p : textual x (piece p) -> textual (string1 x) (fun w => w <> [] /\ encoded p w).
Proof. intro T. eapply textual_ext; [apply textual_string1; exact T|apply encoded_pow1]. Qed.

Lemma pchar_textual : textual pchar (piece is_pchar).
Proof. apply textual_seal; [reflexivity|]. apply (@piece_textual (alt (alt (alt unreserved sub_delims) (lit ":")) (lit "@")) None (bits_of (alt (alt (alt unreserved sub_delims) (lit ":")) (lit "@")))); [reflexivity|apply pchar_bits]. Qed.
Lemma segment_textual : textual segment (encoded is_pchar).
Proof. apply textual_seal; [reflexivity|]. apply encoded_textual, pchar_textual. Qed.
Lemma segment_nz_textual : textual segment_nz (fun w => w <> [] /\ encoded is_pchar w).
Proof. apply textual_seal; [reflexivity|]. apply encoded1_textual, pchar_textual. Qed.
Lemma segment_nc_textual : textual segment_nz_nc (fun w => w <> [] /\ encoded (fun c => is_unreserved c || is_sub_delim c || (c =? 64)%N) w).
Proof. apply textual_seal; [reflexivity|]. apply encoded1_textual. apply (@piece_textual (alt (alt unreserved sub_delims) (lit "@")) None (bits_of (alt (alt unreserved sub_delims) (lit "@")))); [reflexivity|apply nc_bits]. Qed.
Lemma query_piece : textual (alt (alt pchar (lit "/")) (lit "?")) (piece (fun c => is_pchar c || (c =? 47)%N || (c =? 63)%N)).
Proof.
  eapply textual_ext; [apply textual_alt; [apply textual_alt; [apply pchar_textual|apply (@lit1 "/"); reflexivity]|apply (@lit1 "?"); reflexivity]|].
  intro w. rewrite <- piece_or, <- piece_or.
  assert (E : forall k, w = [k] <-> one (fun c => (c =? k)%N) w). { intro k. split; [intros ->; exists k; split; [reflexivity|apply N.eqb_refl]|]. intros (c & -> & C). apply N.eqb_eq in C. now subst c. }
  change (s "/") with [47%N]. change (s "?") with [63%N]. now rewrite !E.
Qed.
Lemma query_textual : textual query query_text.
Proof. apply textual_seal; [reflexivity|]. apply encoded_textual, query_piece. Qed.
Lemma fragment_textual : textual fragment query_text.
Proof. apply textual_seal; [reflexivity|]. apply encoded_textual, query_piece. Qed.
Lemma scheme_textual : textual scheme scheme_text.
Proof.
  apply textual_seal; [reflexivity|]. eapply textual_ext; [apply textual_add; [apply (@class_one ALPHA (Some (s "ALPHA")) (bits_of ALPHA)); [reflexivity|apply SyntaxVals.alpha_bits]|apply (@textual_string_class nested (alt (alt (alt (alt ALPHA DIGIT) (lit "+")) (lit "-")) (lit ".")) None (bits_of (alt (alt (alt (alt ALPHA DIGIT) (lit "+")) (lit "-")) (lit ".")))); [reflexivity|apply scheme_bits]]|].
  intro w. unfold scheme_text. split; [intros (x & y & -> & (c & -> & C) & R); exists c, y; auto|]. intros (c & x & -> & C & R). exists [c], x. split; [reflexivity|]. split; [exists c; auto|exact R].
Qed.
Lemma user_textual : textual userinfo user_text.
Proof. apply textual_seal; [reflexivity|]. apply encoded_textual. apply (@piece_textual (alt (alt unreserved sub_delims) (lit ":")) None (bits_of (alt (alt unreserved sub_delims) (lit ":")))); [reflexivity|apply user_bits]. Qed.
Lemma name_textual : textual reg_name name_text.
Proof. apply textual_seal; [reflexivity|]. apply encoded_textual. apply (@piece_textual (alt unreserved sub_delims) None (bits_of (alt unreserved sub_delims))); [reflexivity|apply reg_bits]. Qed.
Lemma zone_textual : textual ZoneID zone_text.
Proof. apply textual_seal; [reflexivity|]. apply encoded1_textual. apply (@piece_textual unreserved (Some (s "unreserved")) (bits_of unreserved)); [reflexivity|apply unreserved_bits]. Qed.
Lemma port_textual : textual port (all is_digit).
Proof. apply textual_seal; [reflexivity|]. apply (@textual_string_class nested DIGIT (Some (s "DIGIT")) (bits_of DIGIT)); [reflexivity|apply digit_bits]. Qed.

(** ** IPv4 *)
Lemma range_textual a b : (a <= b)%N -> textual (octet_range a b) (one (fun c => (a <=? c) && (c <=? b))%N).
Proof.
  intro L. unfold octet_range. eapply textual_ext; [apply textual_term|]. intro w. unfold one_of, one.
  split; intros (c & H1 & H2); exists c; (split; [exact H1|]).
  - rewrite testbit_range in H2 by lia. lia.
  - rewrite testbit_range by lia. lia.
Qed.
Lemma digit_textual : textual DIGIT (one is_digit).
Proof. apply (@class_one DIGIT (Some (s "DIGIT")) (bits_of DIGIT)); [reflexivity|apply digit_bits]. Qed.
Lemma decimal_from w : forall n, (n <= fold_left (fun n c => 10 * n + (c - 48))%N w n)%N.
Proof. induction w as [|c w IH]; intro n; cbn [fold_left]; [lia|]. specialize (IH (10 * n + (c - 48))%N). lia. Qed.
Lemma byte_textual : textual dec_octet byte_text.
Proof.
  apply textual_seal; [reflexivity|].
  eapply textual_ext.
  - repeat apply textual_alt.
    + apply digit_textual.
    + apply textual_add; [apply range_textual; lia|apply digit_textual].
    + apply textual_add; [apply textual_add; [apply (@lit1 "1"); reflexivity|apply digit_textual]|apply digit_textual].
    + apply textual_add; [apply textual_add; [apply (@lit1 "2"); reflexivity|apply range_textual; lia]|apply digit_textual].
    + apply textual_add; [apply (@lit1 "25"); reflexivity|apply range_textual; lia].
  - intro w. change (s "1") with [49%N]. change (s "2") with [50%N]. change (s "25") with [50%N; 53%N]. unfold byte_text, all1, all. split.
    + assert (F1 : forall c, is_digit c = true -> Forall (fun c => is_digit c = true) [c]) by (intros; constructor; auto).
      intros [[[[(c & -> & C)|(x & y & -> & (c & -> & C) & (d & -> & D))]|(x & y & -> & (x' & z & -> & -> & (d & -> & D)) & (e & -> & E))]|(x & y & -> & (x' & z & -> & -> & (d & -> & D)) & (e & -> & E))]|(x & y & -> & -> & (e & -> & E))];
        cbn [app hd]; unfold decimal; cbn [fold_left]; unfold is_digit in *; (split; [split; [discriminate|repeat (constructor; [lia|]); constructor]|split; [lia|intro Z; try discriminate Z; try (subst; reflexivity); try lia]]).
    + intros ((Nw & F) & L & Z). destruct w as [|c w]; [now destruct Nw|]. cbn [hd] in Z. inversion F as [|? ? C F1]; subst. destruct w as [|d w]; [left; left; left; left; exists c; auto|].
      assert (C0 : c <> 48%N) by (intros ->; specialize (Z eq_refl); discriminate Z). clear Z Nw F. inversion F1 as [|? ? D F2]; subst. clear F1. destruct w as [|e w].
      { left; left; left; right. exists [c], [d]. split; [reflexivity|]. split; [exists c; split; [reflexivity|unfold is_digit in C; lia]|exists d; auto]. }
      inversion F2 as [|? ? E F3]; subst. destruct w as [|f w].
      { unfold decimal in L. cbn [fold_left] in L. assert (c = 49 \/ c = 50 /\ (d <= 52) \/ c = 50 /\ d = 53 /\ e <= 53)%N as [->|[(-> & D4)|(-> & -> & E5)]] by (unfold is_digit in *; lia).
        - left; left; right. exists [49%N; d], [e]. split; [reflexivity|]. split; [exists [49%N], [d]; split; [reflexivity|]; split; [reflexivity|exists d; auto]|exists e; auto].
        - left; right. exists [50%N; d], [e]. split; [reflexivity|]. split; [exists [50%N], [d]; split; [reflexivity|]; split; [reflexivity|exists d; split; [reflexivity|unfold is_digit in D; lia]]|exists e; auto].
        - right. exists [50%N; 53%N], [e]. split; [reflexivity|]. split; [reflexivity|]. exists e. split; [reflexivity|]. unfold is_digit in E. lia. }
      exfalso. unfold decimal in L. cbn [fold_left] in L. pose proof (@decimal_from w (10 * (10 * (10 * (10 * 0 + (c - 48)) + (d - 48)) + (e - 48)) + (f - 48))%N) as G. unfold is_digit in C. lia.
Qed.
Lemma ipv4_textual : textual IPv4address ipv4_text.
Proof.
  apply textual_seal; [reflexivity|]. eapply textual_ext; [repeat (apply textual_add; [|first [apply byte_textual|apply (@lit1 "."); reflexivity]]); apply byte_textual|].
  intro w. unfold ipv4_text. split.
  - intros (x1 & d & -> & (x2 & ? & -> & (x3 & c & -> & (x4 & ? & -> & (x5 & b & -> & (a & ? & -> & A1 & ->) & B1) & ->) & C1) & ->) & D1). exists [a; b; c; d]. split; [|split; [reflexivity|auto]]. cbn [between]. change (s ".") with [46%N]. rewrite <- !app_assoc. reflexivity.
  - intros (l & -> & L & F). destruct l as [|a [|b [|c [|d [|]]]]]; try discriminate L. inversion F as [|? ? A1 F1]; subst. inversion F1 as [|? ? B1 F2]; subst. inversion F2 as [|? ? C1 F3]; subst. inversion F3 as [|? ? D1 _]; subst. cbn [between].
    exists (((((a ++ s ".") ++ b) ++ s ".") ++ c) ++ s "."), d. split; [change (s ".") with [46%N]; rewrite <- !app_assoc; reflexivity|]. split; [|exact D1].
    eexists. eexists. split; [reflexivity|]. split; [|reflexivity]. eexists. eexists. split; [reflexivity|]. split; [|exact C1]. eexists. eexists. split; [reflexivity|]. split; [|reflexivity]. eexists. eexists. split; [reflexivity|]. split; [|exact B1]. eexists. eexists. split; [reflexivity|]. auto.
Qed.

(** ** IPv6 *)
Definition heads (l : list str) : str := flat_map (fun g => g ++ [58%N]) l.
Lemma between_last l x : between 58 (l ++ [x]) = heads l ++ x.
Proof. induction l as [|a l IH]; [reflexivity|]. cbn [app between heads flat_map]. destruct (l ++ [x]) as [|b l'] eqn:E; [destruct l; discriminate E|]. rewrite IH. unfold heads. rewrite <- !app_assoc. reflexivity. Qed.
Lemma h16_textual : textual h16 group_text.
Proof.
  apply textual_seal; [reflexivity|]. unfold string_times_. eapply textual_ext; [apply textual_string_times; [apply hex_textual|discriminate|lia]|].
  intro w. unfold group_text, count_ok. split.
  - intros (k & K & P). apply pow_class in P. destruct P as [<- P]. split; [exact P|lia].
  - intros (P & L). exists (List.length w). split; [lia|]. apply pow_class. auto.
Qed.
Lemma h16c_textual : textual (add h16 (lit ":")) (fun w => exists g, group_text g /\ w = g ++ [58%N]).
Proof. eapply textual_ext; [apply textual_add; [apply h16_textual|apply (@lit1 ":"); reflexivity]|]. intro w. split; [intros (g & ? & -> & G & ->); eauto|]. intros (g & G & ->). exists g, [58%N]. auto. Qed.
Lemma heads_pow n w : pow n (fun w => exists g, group_text g /\ w = g ++ [58%N]) w <-> exists l, List.length l = n /\ Forall group_text l /\ w = heads l.
Proof.
  revert w. induction n as [|n IH]; intro w; cbn [pow].
  - split; [intros ->; exists []; split; [reflexivity|]; split; [constructor|reflexivity]|]. intros ([|] & L & _ & ->); [reflexivity|discriminate L].
  - split.
    + intros (u & v & -> & (g & G & ->) & H). apply IH in H. destruct H as (l & <- & F & ->). exists (g :: l). split; [reflexivity|]. split; [now constructor|reflexivity].
    + intros ([|g l] & L & F & ->); [discriminate L|]. inversion F; subst. exists (g ++ [58%N]), (heads l). split; [reflexivity|]. split; [eauto|]. apply IH. exists l. split; [now injection L|auto].
Qed.
Lemma heads_textual a b : b <> 0 -> a <= b -> textual (string_times_ a b (add h16 (lit ":"))) (fun w => exists l, a <= List.length l <= b /\ Forall group_text l /\ w = heads l).
Proof.
  intros B L. unfold string_times_. eapply textual_ext; [apply textual_string_times; [apply h16c_textual|congruence|exact L]|]. intro w. unfold count_ok. split.
  - intros (n & K & P). apply heads_pow in P. destruct P as (l & <- & F & ->). exists l. split; [lia|auto].
  - intros (l & K & F & ->). exists (List.length l). split; [lia|]. apply heads_pow. eauto.
Qed.
Definition last_two (w : str) : Prop := (exists a b, group_text a /\ group_text b /\ w = a ++ 58%N :: b) \/ ipv4_text w.
Lemma ls32_textual : textual ls32 last_two.
Proof.
  apply textual_seal; [reflexivity|]. apply textual_alt; [|apply ipv4_textual]. eapply textual_ext; [apply textual_add; [apply h16c_textual|apply h16_textual]|].
  intro w. split; [intros (x & b & -> & (a & A1 & ->) & B); exists a, b; rewrite <- app_assoc; auto|]. intros (a & b & A1 & B & ->). exists (a ++ [58%N]), b. rewrite <- app_assoc. eauto 6.
Qed.
Lemma groups_two n w : groups_text (n + 2) w <-> exists l x, List.length l = n /\ Forall group_text l /\ last_two x /\ w = heads l ++ x.
Proof.
  unfold groups_text, last_two. split.
  - intros (l & F & [(-> & L)|(x & X & -> & L)]).
    + destruct (exists_last (l := l)) as (l1 & b & ->); [intros ->; cbn in L; lia|]. rewrite app_length in L. cbn [List.length] in L. destruct (exists_last (l := l1)) as (l2 & a & ->); [intros ->; cbn in L; lia|]. rewrite app_length in L. cbn [List.length] in L.
      apply Forall_app in F. destruct F as [F B]. apply Forall_app in F. destruct F as [F A1]. inversion B; subst. inversion A1; subst. exists l2, (a ++ 58%N :: b). split; [lia|]. split; [exact F|]. split; [left; eauto 6|]. rewrite between_last. unfold heads. rewrite flat_map_app. cbn [flat_map]. rewrite app_nil_r, <- !app_assoc. reflexivity.
    + exists l, x. split; [lia|]. split; [exact F|]. split; [now right|apply between_last].
  - intros (l & x & <- & F & [(a & b & A1 & B & ->)|X] & ->).
    + exists ((l ++ [a]) ++ [b]). split; [repeat (apply Forall_app; split); auto|]. left. rewrite between_last. unfold heads. rewrite flat_map_app. cbn [flat_map]. rewrite app_nil_r, <- !app_assoc, !app_length. cbn [List.length]. split; [reflexivity|lia].
    + exists l. split; [exact F|]. right. exists x. split; [exact X|]. split; [symmetry; apply between_last|reflexivity].
Qed.
Lemma groups_one w : groups_text 1 w <-> group_text w.
Proof.
  split.
  - intros (l & F & [(-> & L)|(x & X & -> & L)]); [|lia]. destruct l as [|g [|]]; try discriminate L. now inversion F.
  - intro G. exists [w]. split; [auto|]. left. auto.
Qed.
Lemma groups_none w : groups_text 0 w <-> w = [].
Proof.
  split.
  - intros (l & F & [(-> & L)|(x & X & -> & L)]); [|lia]. now destruct l.
  - intros ->. exists []. split; [auto|]. left. auto.
Qed.
Definition front (k : nat) (w : str) : Prop := exists l, Forall group_text l /\ List.length l <= k /\ w = between 58 l.
Lemma front_textual k : k <> 0 -> textual (maybe_str (add (string_times_ 0 k (add h16 (lit ":"))) h16)) (front (S k)).
Proof.
  intro K. eapply textual_ext; [apply textual_maybe_str, textual_add; [apply heads_textual; [exact K|lia]|apply h16_textual]|]. intro w. unfold front. split.
  - intros [(u & g & -> & (l & L & F & ->) & G)| ->]; [|exists []; split; [auto|]; split; [cbn; lia|reflexivity]]. exists (l ++ [g]). split; [apply Forall_app; auto|]. rewrite app_length, between_last. cbn [List.length]. split; [lia|reflexivity].
  - intros (l & F & L & ->). destruct l as [|a l0]; [now right|left]. destruct (exists_last (l := a :: l0)) as (l1 & b & E); [discriminate|]. rewrite E in *. rewrite app_length in L. cbn [List.length] in L. apply Forall_app in F. destruct F as [F B]. inversion B; subst.
    exists (heads l1), b. rewrite between_last. split; [reflexivity|]. split; [|assumption]. exists l1. split; [lia|auto].
Qed.
Lemma front_one : textual (maybe_str h16) (front 1).
Proof.
  eapply textual_ext; [apply textual_maybe_str, h16_textual|]. intro w. unfold front. split.
  - intros [G| ->]; [exists [w]; split; [auto|]; split; [cbn; lia|reflexivity]|exists []; split; [auto|]; split; [cbn; lia|reflexivity]].
  - intros (l & F & L & ->). destruct l as [|a [|]]; [now right|left; now inversion F|cbn in L; lia].
Qed.
Definition short (k n : nat) (w : str) : Prop := exists l x, Forall group_text l /\ List.length l <= k /\ groups_text n x /\ w = between 58 l ++ s "::" ++ x.
Lemma short_none F k : textual F (front k) -> textual (add F (lit "::")) (short k 0).
Proof.
  intro T. eapply textual_ext; [apply textual_add; [exact T|apply (@lit1 "::"); reflexivity]|]. intro w. unfold front, short. split.
  - intros (u & ? & -> & (l & Fl & L & ->) & ->). exists l, []. rewrite groups_none. auto.
  - intros (l & x & Fl & L & X & ->). apply groups_none in X. subst x. exists (between 58 l), (s "::"). eauto 8.
Qed.
Lemma short_one F k : textual F (front k) -> textual (add (add F (lit "::")) h16) (short k 1).
Proof.
  intro T. eapply textual_ext; [apply textual_add; [apply short_none; exact T|apply h16_textual]|]. intro w. unfold short. split.
  - intros (u & g & -> & (l & x & Fl & L & X & ->) & G). apply groups_none in X. subst x. exists l, g. rewrite groups_one, <- !app_assoc. auto.
  - intros (l & g & Fl & L & G & ->). apply groups_one in G. exists (between 58 l ++ s "::" ++ []), g. split; [now rewrite <- !app_assoc|]. split; [|exact G]. exists l, []. rewrite groups_none. auto.
Qed.
Lemma short_two F k : textual F (front k) -> textual (add (add F (lit "::")) ls32) (short k 2).
Proof.
  intro T. eapply textual_ext; [apply textual_add; [apply short_none; exact T|apply ls32_textual]|]. intro w. unfold short. split.
  - intros (u & g & -> & (l & x & Fl & L & X & ->) & G). apply groups_none in X. subst x. exists l, g. split; [exact Fl|]. split; [exact L|]. split; [apply (groups_two 0); exists [], g; auto|now rewrite <- !app_assoc].
  - intros (l & g & Fl & L & G & ->). apply (groups_two 0) in G. destruct G as (l' & x & L' & _ & X & ->). destruct l'; [|discriminate L']. exists (between 58 l ++ s "::" ++ []), x. split; [now rewrite <- !app_assoc|]. split; [|exact X]. exists l, []. rewrite groups_none. auto.
Qed.
Lemma short_three F k : textual F (front k) -> textual (add (add (add (add F (lit "::")) h16) (lit ":")) ls32) (short k 3).
Proof.
  intro T. eapply textual_ext; [apply textual_add; [apply textual_add; [apply short_one; exact T|apply (@lit1 ":"); reflexivity]|apply ls32_textual]|]. intro w. unfold short. split.
  - intros (u & y & -> & (v & ? & -> & (l & g & Fl & L & G & ->) & ->) & Y). apply groups_one in G. exists l, (g ++ 58%N :: y). split; [exact Fl|]. split; [exact L|]. split; [|change (s ":") with [58%N]; now rewrite <- !app_assoc]. apply (groups_two 1). exists [g], y. split; [reflexivity|]. split; [auto|]. split; [exact Y|]. cbn [heads flat_map]. now rewrite app_nil_r, <- app_assoc.
  - intros (l & g & Fl & L & G & ->). apply (groups_two 1) in G. destruct G as (l' & x & L' & F' & X & ->). destruct l' as [|a [|]]; try discriminate L'. inversion F'; subst. exists ((between 58 l ++ s "::" ++ a) ++ s ":"), x. split; [cbn [heads flat_map]; change (s ":") with [58%N]; now rewrite app_nil_r, <- !app_assoc|]. split; [|exact X]. eexists. eexists. split; [reflexivity|]. split; [|reflexivity]. exists l, a. rewrite groups_one. auto.
Qed.
Lemma short_more F k n : n <> 0 -> textual F (front k) -> textual (add (add (add F (lit "::")) (string_times_ n n (add h16 (lit ":")))) ls32) (short k (n + 2)).
Proof.
  intros K T. eapply textual_ext; [apply textual_add; [apply textual_add; [apply short_none; exact T|apply heads_textual; [exact K|lia]]|apply ls32_textual]|]. intro w. unfold short. split.
  - intros (u & y & -> & (v & z & -> & (l & g & Fl & L & G & ->) & (gs & Lg & Fg & ->)) & Y). apply groups_none in G. subst g. exists l, (heads gs ++ y). split; [exact Fl|]. split; [exact L|]. split; [|now rewrite <- !app_assoc]. apply groups_two. exists gs, y. split; [lia|auto].
  - intros (l & g & Fl & L & G & ->). apply groups_two in G. destruct G as (gs & x & L' & F' & X & ->). exists ((between 58 l ++ s "::" ++ []) ++ heads gs), x. split; [now rewrite <- !app_assoc|]. split; [|exact X]. eexists. eexists. split; [reflexivity|]. split; [|exists gs; split; [lia|auto]]. exists l, []. rewrite groups_none. auto.
Qed.
Lemma short_start n : n <> 0 -> textual (add (add (lit "::") (string_times_ n n (add h16 (lit ":")))) ls32) (short 0 (n + 2)).
Proof.
  intro K. eapply textual_ext; [apply textual_add; [apply textual_add; [apply (@lit1 "::"); reflexivity|apply heads_textual; [exact K|lia]]|apply ls32_textual]|]. intro w. unfold short. split.
  - intros (u & y & -> & (v & z & -> & -> & (gs & Lg & Fg & ->)) & Y). exists [], (heads gs ++ y). split; [auto|]. split; [auto|]. split; [|now rewrite <- !app_assoc]. apply groups_two. exists gs, y. split; [lia|auto].
  - intros (l & g & Fl & L & G & ->). destruct l; [|cbn in L; lia]. apply groups_two in G. destruct G as (gs & x & L' & F' & X & ->). exists (s "::" ++ heads gs), x. split; [cbn [between]; now rewrite <- !app_assoc|]. split; [|exact X]. eexists. eexists. split; [reflexivity|]. split; [reflexivity|exists gs; split; [lia|auto]].
Qed.
Lemma whole_textual : textual (add (string_times_ 6 6 (add h16 (lit ":"))) ls32) (groups_text 8).
Proof.
  eapply textual_ext; [apply textual_add; [apply heads_textual; lia|apply ls32_textual]|]. intro w. rewrite (groups_two 6). split.
  - intros (u & x & -> & (l & L & F & ->) & X). exists l, x. split; [lia|auto].
  - intros (l & x & L & F & X & ->). exists (heads l), x. split; [reflexivity|]. split; [|exact X]. exists l. split; [lia|auto].
Qed.
Lemma ipv6_textual : textual IPv6address ipv6_text.
Proof.
  apply textual_seal; [reflexivity|]. eapply textual_ext.
  - repeat apply textual_alt; [apply whole_textual|apply (@short_start 5); lia|apply (@short_more _ 1 4); [lia|apply front_one]|apply (@short_more _ 2 3); [lia|apply front_textual; lia]|apply (@short_more _ 3 2); [lia|apply front_textual; lia]
      |apply (@short_three _ 4), front_textual; lia|apply (@short_two _ 5), front_textual; lia|apply (@short_one _ 6), front_textual; lia|apply (@short_none _ 7), front_textual; lia].
  - intro w. unfold ipv6_text. cbn [Nat.add]. split.
    + assert (X : forall k n, k + n <= 7 -> short k n w -> exists l m x, Forall group_text l /\ groups_text m x /\ w = between 58 l ++ s "::" ++ x /\ List.length l + m <= 7).
      { intros k n K (l & x & F & L & G & ->). exists l, n, x. repeat split; auto. lia. }
      intros [[[[[[[[H|H]|H]|H]|H]|H]|H]|H]|H]; [now left|..]; right; revert H; apply X; lia.
    + intros [H|(l & m & x & F & G & -> & L)]; [repeat left; exact H|].
      assert (X : forall k n, m = n -> List.length l <= k -> short k n (between 58 l ++ s "::" ++ x)) by (intros k n <- Lk; exists l, x; auto).
      destruct m as [|[|[|[|[|[|[|[|]]]]]]]]; [..|lia].
      * right. apply X; lia.
      * left; right. apply X; lia.
      * left; left; right. apply X; lia.
      * do 3 left; right. apply X; lia.
      * do 4 left; right. apply X; lia.
      * do 5 left; right. apply X; lia.
      * do 6 left; right. apply X; lia.
      * do 7 left; right. apply X; lia.
Qed.

(** ** Hosts *)
Lemma v_textual : textual (lit "v") (fun w => exists c, (c = 86 \/ c = 118)%N /\ w = [c]).
Proof.
  eapply textual_ext; [apply same_textual|]. intro w. split.
  - intro H. inversion H as [|? d ? l H1 H2]; subst. inversion H2; subst. exists d. split; [|reflexivity]. destruct H1 as [<-|(_ & D & [E|E])]; [now right|left; lia|unfold is_alpha in D; lia].
  - intros (c & C & ->). constructor; [|constructor]. destruct C as [->| ->]; [right; split; [reflexivity|]; split; [reflexivity|left; reflexivity]|now left].
Qed.
Lemma future_textual : textual IPvFuture future_text.
Proof.
  apply textual_seal; [reflexivity|]. eapply textual_ext; [apply textual_add; [apply textual_add; [apply textual_add; [apply v_textual|apply (@textual_string1_class nested HEXDIG (Some (s "HEXDIG")) (bits_of HEXDIG)); [reflexivity|apply is_hex_bits]]|apply (@lit1 "."); reflexivity]|
    apply (@textual_string1_class nested (alt (alt unreserved sub_delims) (lit ":")) None (bits_of (alt (alt unreserved sub_delims) (lit ":")))); [reflexivity|apply user_bits]]|].
  intro w. unfold future_text. split.
  - intros (u & y & -> & (u' & ? & -> & (? & x & -> & (c & C & ->) & X) & ->) & Y). exists c, x, y. split; [exact C|]. split; [|auto]. cbn [app]. change (s ".") with [46%N]. now rewrite <- app_assoc.
  - intros (c & x & y & C & -> & X & Y). exists ((c :: x) ++ [46%N]), y. split; [cbn [app]; now rewrite <- app_assoc|]. split; [|exact Y]. exists (c :: x), [46%N]. split; [reflexivity|]. split; [|reflexivity]. exists [c], x. split; [reflexivity|]. eauto.
Qed.
Lemma addrz_textual : textual IPv6addrz (fun w => exists x z, w = x ++ s "%25" ++ z /\ ipv6_text x /\ zone_text z).
Proof.
  apply textual_seal; [reflexivity|]. eapply textual_ext; [apply textual_add; [apply textual_add; [apply ipv6_textual|apply (@lit1 "%25"); reflexivity]|apply zone_textual]|].
  intro w. split.
  - intros (u & z & -> & (x & ? & -> & X & ->) & Z). exists x, z. now rewrite <- app_assoc.
  - intros (x & z & -> & X & Z). exists (x ++ s "%25"), z. rewrite <- app_assoc. split; [reflexivity|]. split; [|exact Z]. exists x, (s "%25"). auto.
Qed.
Lemma literal_textual : textual IP_literal (fun w => exists x, w = 91%N :: x ++ [93%N] /\ in_brackets x).
Proof.
  apply textual_seal; [reflexivity|]. eapply textual_ext; [apply textual_add; [apply textual_add; [apply (@lit1 "["); reflexivity|apply textual_alt; [apply textual_alt; [apply ipv6_textual|apply addrz_textual]|apply future_textual]]|apply (@lit1 "]"); reflexivity]|].
  intro w. unfold in_brackets. split.
  - intros (u & ? & -> & (? & x & -> & -> & X) & ->). exists x. split; [reflexivity|tauto].
  - intros (x & -> & X). exists (91%N :: x), [93%N]. split; [reflexivity|]. split; [|reflexivity]. exists [91%N], x. split; [reflexivity|]. split; [reflexivity|tauto].
Qed.
Lemma between_encoded p sep l : p sep = true -> Forall (encoded p) l -> encoded p (between sep l).
Proof.
  intros P F. induction F as [|x l X F IH]; [constructor|]. cbn [between]. destruct l as [|y l]; [exact X|]. apply encoded_app; [exact X|]. now apply encoded_char.
Qed.
Lemma ipv4_name w : ipv4_text w -> name_text w.
Proof.
  intros (l & -> & _ & F). apply between_encoded; [reflexivity|]. eapply Forall_impl; [|exact F]. intros x ((_ & D) & _). apply encoded_all. eapply Forall_impl; [|exact D]. cbn beta. intros c C. unfold is_unreserved. now rewrite C, !orb_true_r.
Qed.
Lemma host_textual : textual host host_text.
Proof.
  apply textual_seal; [reflexivity|]. eapply textual_ext; [apply textual_alt; [apply textual_alt; [apply literal_textual|apply ipv4_textual]|apply name_textual]|].
  intro w. unfold host_text. pose proof (@ipv4_name w). tauto.
Qed.
Lemma perhaps_textual c x L : textual x (fun w => exists y, w = c :: y /\ L y) -> textual (maybe_str x) (perhaps_text c L).
Proof. intro T. eapply textual_ext; [apply textual_maybe_str; exact T|]. intro w. unfold perhaps_text. tauto. Qed.
Lemma lit_before (c : BinNums.N) x L y : textual y (fun w => w = [c]) -> textual x L -> textual (add y x) (fun w => exists z, w = c :: z /\ L z).
Proof. intros Ty Tx. eapply textual_ext; [apply textual_add; [exact Ty|exact Tx]|]. intro w. split; [intros (? & z & -> & -> & Z); exists z; auto|]. intros (z & -> & Z). exists [c], z. auto. Qed.
Lemma host_port_textual : textual (add host (maybe_str (add (lit ":") port))) host_and_port.
Proof. apply textual_add; [apply host_textual|]. apply perhaps_textual, lit_before; [apply (@lit1 ":"); reflexivity|apply port_textual]. Qed.
Lemma Host_textual : textual Host host_and_port.
Proof. apply textual_seal; [reflexivity|]. apply host_port_textual. Qed.
Lemma authority_textual : textual authority authority_text.
Proof.
  apply textual_seal; [reflexivity|]. eapply textual_ext; [apply textual_add; [apply textual_add; [apply textual_maybe_str, textual_add; [apply user_textual|apply (@lit1 "@"); reflexivity]|apply host_textual]|apply perhaps_textual, lit_before; [apply (@lit1 ":"); reflexivity|apply port_textual]]|].
  intro w. unfold authority_text, host_and_port. split.
  - intros (u & p & -> & (u' & h & -> & U & H) & P). exists u', (h ++ p). rewrite <- app_assoc. split; [reflexivity|]. split; [|eauto]. destruct U as [(x & ? & -> & X & ->)| ->]; [right; exists x; auto|now left].
  - intros (u & ? & -> & U & (h & p & -> & H & P)). exists (u ++ h), p. rewrite <- app_assoc. split; [reflexivity|]. split; [|exact P]. exists u, h. split; [reflexivity|]. split; [|exact H]. destruct U as [->|(x & -> & X)]; [now right|left; exists x, [64%N]; auto].
Qed.

(** ** Paths *)
Definition slashed (w : str) : Prop := path_text w /\ (w = [] \/ starts (s "/") w).
Definition slash_seg (w : str) : Prop := exists y, w = 47%N :: y /\ encoded is_pchar y.
Lemma first_segment w : path_text w -> exists y v n, w = y ++ v /\ encoded is_pchar y /\ pow n slash_seg v.
Proof.
  intro E. induction E as [|c w P E (y & v & n & -> & Y & H)|h l w Hh Hl E (y & v & n & -> & Y & H)].
  - exists [], [], 0. split; [reflexivity|]. split; [constructor|reflexivity].
  - destruct (N.eqb c 47) eqn:C.
    + apply N.eqb_eq in C. subst c. exists [], (47%N :: y ++ v), (S n). split; [reflexivity|]. split; [constructor|]. exists (47%N :: y), v. split; [reflexivity|]. split; [exists y; auto|exact H].
    + exists (c :: y), v, n. split; [reflexivity|]. split; [|exact H]. apply encoded_char; [|exact Y]. now rewrite orb_false_r in P.
  - exists (37%N :: h :: l :: y), v, n. split; [reflexivity|]. split; [|exact H]. now apply encoded_pct.
Qed.
Lemma pchar_path y : encoded is_pchar y -> path_text y.
Proof. apply encoded_impl. intros c ->. reflexivity. Qed.
Lemma slash_segment w : (exists n, pow n slash_seg w) <-> slashed w.
Proof.
  unfold slashed. split.
  - intros (n & H). revert w H. induction n as [|n IH]; intros w H; cbn [pow] in H; [rewrite H; split; [constructor|now left]|].
    destruct H as (u & v & -> & (y & -> & Y) & H). destruct (IH _ H) as (E & _). split; [|right; exists (y ++ v); reflexivity]. cbn [app]. apply encoded_char; [reflexivity|]. apply encoded_app; [now apply pchar_path|exact E].
  - intros (E & Z). destruct Z as [->|(z & ->)]; [exists 0; reflexivity|]. destruct (first_segment E) as (y & v & n & Q & Y & H). destruct y as [|c y]; [cbn [app] in Q; rewrite Q; eauto|]. exfalso. injection Q as <- Q. inversion Y as [|? ? P|]; discriminate P.
Qed.
Lemma slash_textual : textual (add (lit "/") segment) (fun w => exists y, w = 47%N :: y /\ encoded is_pchar y).
Proof. apply lit_before; [apply (@lit1 "/"); reflexivity|apply segment_textual]. Qed.
Lemma abempty_textual : textual path_abempty slashed.
Proof. apply textual_seal; [reflexivity|]. eapply textual_ext; [apply textual_string, slash_textual|apply slash_segment]. Qed.
Lemma absolute_path_textual : textual absolute_path (fun w => path_text w /\ starts (s "/") w).
Proof.
  apply textual_seal; [reflexivity|]. eapply textual_ext; [apply textual_string1, slash_textual|]. intro w. split.
  - intros (n & L & H). assert (S : slashed w) by (apply slash_segment; eauto). destruct S as (E & [->|S]); [|auto]. destruct n as [|n]; [lia|]. cbn [pow] in H. destruct H as (u & v & Q & (y & -> & _) & _). discriminate Q.
  - intros (E & S). assert (T : slashed w) by (split; auto). apply slash_segment in T. destruct T as ([|n] & H); [cbn [pow] in H; destruct S as (y & Q); rewrite H in Q; discriminate Q|]. exists (Datatypes.S n). split; [lia|exact H].
Qed.

(** Paths that start with a segment that is not empty. *)
Lemma rootless_textual : textual path_rootless (fun w => path_text w /\ w <> [] /\ ~ starts (s "/") w).
Proof.
  apply textual_seal; [reflexivity|]. eapply textual_ext; [apply textual_add; [apply segment_nz_textual|apply textual_string, slash_textual]|]. intro w. split.
  - intros (u & v & -> & (Nu & U) & H). apply slash_segment in H. destruct H as (E & _). split; [apply encoded_app; [now apply pchar_path|exact E]|]. destruct u as [|c u]; [now destruct Nu|]. split; [discriminate|]. intros (z & Q). injection Q as -> Q. inversion U as [|? ? P|]; discriminate P.
  - intros (E & Nw & Z). destruct (first_segment E) as (y & v & n & -> & Y & H). exists y, v. split; [reflexivity|]. split; [|eauto]. split; [|exact Y]. intros ->. cbn [app] in *. destruct n as [|n]; cbn [pow] in H; [now destruct Nw|]. destruct H as (u & r & -> & (x & -> & _) & _). apply Z. exists (x ++ r). reflexivity.
Qed.
Lemma nc_colon u : encoded (fun c => is_unreserved c || is_sub_delim c || (c =? 64)%N) u -> ~ In 58%N u.
Proof.
  assert (X : forall c, is_hex c = true -> c <> 58%N) by (intros c C ->; discriminate C).
  induction 1 as [|c w P E IH|h l w Hh Hl E IH]; [intros []|intros [->|I]; [discriminate P|auto]|]. intros [Q|[Q|[Q|I]]]; [discriminate Q|exact (X h Hh Q)|exact (X l Hl Q)|auto].
Qed.
Lemma nc_intro u : encoded is_pchar u -> ~ In 58%N u -> encoded (fun c => is_unreserved c || is_sub_delim c || (c =? 64)%N) u.
Proof.
  induction 1 as [|c w P E IH|h l w Hh Hl E IH]; intro I; [constructor| |].
  - apply encoded_char; [|apply IH; intro Q; apply I; now right]. unfold is_pchar in P. destruct (N.eqb_spec c 58) as [->|Nc]; [now destruct I; left|]. now rewrite orb_false_r in P.
  - apply encoded_pct; auto. apply IH. intro Q. apply I. do 3 right. exact Q.
Qed.
Lemma pchar_slash u : encoded is_pchar u -> ~ In 47%N u.
Proof.
  assert (X : forall c, is_hex c = true -> c <> 47%N) by (intros c C ->; discriminate C).
  induction 1 as [|c w P E IH|h l w Hh Hl E IH]; [intros []|intros [->|I]; [discriminate P|auto]|]. intros [Q|[Q|[Q|I]]]; [discriminate Q|exact (X h Hh Q)|exact (X l Hl Q)|auto].
Qed.
Lemma noscheme_textual : textual path_noscheme (fun w => path_text w /\ w <> [] /\ ~ starts (s "/") w /\ ~ looks_schemed w).
Proof.
  apply textual_seal; [reflexivity|]. eapply textual_ext; [apply textual_add; [apply segment_nc_textual|apply textual_string, slash_textual]|]. intro w. split.
  - intros (u & v & -> & (Nu & U) & H). apply slash_segment in H. destruct H as (E & Z).
    assert (U' : encoded is_pchar u). { revert U. apply encoded_impl. intros c C. unfold is_pchar. apply orb_true_iff in C. destruct C as [C|C]; rewrite C, ?orb_true_r; reflexivity. }
    split; [apply encoded_app; [now apply pchar_path|exact E]|]. pose proof (nc_colon U) as C. clear U. destruct u as [|c u]; [now destruct Nu|]. split; [discriminate|]. split; [intros (z & Q); injection Q as -> Q; inversion U' as [|? ? P|]; discriminate P|].
    intros (x & y & Q & I). apply app_eq_app in Q. destruct Q as (l & [(Q1 & Q)|(-> & Q)]).
    + destruct l as [|d l]; [|injection Q as <- Q; apply C; rewrite Q1; apply in_app_iff; right; now left]. cbn [app] in Q. subst v. destruct Z as [Z|(z & Z)]; discriminate Z.
    + destruct Z as [->|(z & ->)]; [destruct l; discriminate Q|]. destruct l as [|d l]; [discriminate Q|]. injection Q as <- Q. apply I, in_app_iff. right. now left.
  - intros (E & Nw & Z & K). destruct (first_segment E) as (y & v & n & -> & Y & H). exists y, v. split; [reflexivity|]. split; [|eauto]. split.
    + intros ->. cbn [app] in *. destruct n as [|n]; cbn [pow] in H; [now destruct Nw|]. destruct H as (u & r & -> & (x & -> & _) & _). apply Z. exists (x ++ r). reflexivity.
    + apply nc_intro; [exact Y|]. intro I. apply in_split in I. destruct I as (a & b & ->). apply K. exists a, (b ++ v). rewrite <- app_assoc. split; [reflexivity|]. intro I. apply (pchar_slash Y). apply in_app_iff. now left.
Qed.
Lemma path_absolute_textual : textual path_absolute (fun w => path_text w /\ starts (s "/") w /\ ~ starts (s "//") w).
Proof.
  apply textual_seal; [reflexivity|]. eapply textual_ext; [apply lit_before; [apply (@lit1 "/"); reflexivity|apply textual_maybe_str]|].
  - eapply textual_ext; [apply textual_add; [apply segment_nz_textual|apply textual_string, slash_textual]|]. intro w. reflexivity.
  - assert (R : forall w, cat (fun w => w <> [] /\ encoded is_pchar w) (fun w => exists n, pow n (fun w => exists y, w = 47%N :: y /\ encoded is_pchar y) w) w <-> path_text w /\ w <> [] /\ ~ starts (s "/") w).
    { apply (textual_lang_eq (x := path_rootless) (rec_rules := rec_rules) (pyfun := pf)); [|apply rootless_textual]. apply textual_seal; [reflexivity|]. apply textual_add; [apply segment_nz_textual|apply textual_string, slash_textual]. }
    intro w. split.
    + intros (z & -> & [H| ->]).
      * apply R in H. destruct H as (E & Nz & Z). split; [now apply encoded_char|]. split; [exists z; reflexivity|]. intros (y & Q). injection Q as ->. apply Z. exists y. reflexivity.
      * split; [apply encoded_char; [reflexivity|constructor]|]. split; [exists []; reflexivity|]. intros (y & Q). discriminate Q.
    + intros (E & (z & ->) & Z). exists z. split; [reflexivity|]. destruct z as [|c z]; [now right|left]. apply R. split; [|split; [discriminate|]].
      * inversion E as [|? ? _ E'|]; subst; exact E'.
      * intros (y & Q). injection Q as -> ->. apply Z. exists y. reflexivity.
Qed.
Lemma path_empty_textual : textual path_empty (fun w => w = []).
Proof. apply textual_seal; [reflexivity|]. apply textual_subst_empty. Qed.

(** ** URIs *)
Lemma net_textual : textual (add (add (lit "//") authority) path_abempty) (fun w => exists a p, w = (s "//" ++ a) ++ p /\ authority_text a /\ slashed p).
Proof.
  eapply textual_ext; [apply textual_add; [apply textual_add; [apply (@lit1 "//"); reflexivity|apply authority_textual]|apply abempty_textual]|]. intro w. split.
  - intros (u & p & -> & (? & a & -> & -> & A1) & P). exists a, p. auto.
  - intros (a & p & -> & A1 & P). exists (s "//" ++ a), p. split; [reflexivity|]. split; [|exact P]. exists (s "//"), a. auto.
Qed.
Lemma starts_dec w : starts (s "/") w \/ ~ starts (s "/") w.
Proof.
  destruct w as [|c w]; [right; intros (z & Q); discriminate Q|]. destruct (N.eqb_spec c 47) as [->|Nc]; [left; exists w; reflexivity|right]. intros (z & Q). injection Q as Q _. now destruct Nc.
Qed.
Lemma hier_textual : textual hier_part located.
Proof.
  apply textual_seal; [reflexivity|]. eapply textual_ext; [apply textual_alt; [apply textual_alt; [apply textual_alt; [apply net_textual|apply path_absolute_textual]|apply rootless_textual]|apply path_empty_textual]|].
  intro w. unfold located. split.
  - intros [[[(a & p & -> & A1 & (E & Z))|(E & Z & Z2)]|(E & Nw & Z)]| ->].
    + exists (s "//" ++ a), p. split; [reflexivity|]. split; [exact E|]. left. split; [eauto|exact Z].
    + exists [], w. auto.
    + exists [], w. split; [reflexivity|]. split; [exact E|]. right. split; [reflexivity|]. intros (y & ->). apply Z. exists (s "/" ++ y). reflexivity.
    + exists [], []. split; [reflexivity|]. split; [constructor|]. right. split; [reflexivity|]. intros (y & Q). discriminate Q.
  - intros (a & p & -> & E & [((x & -> & X) & Z)|(-> & Z)]); [left; left; left; exists x, p; repeat split; auto|]. cbn [app]. destruct p as [|c p]; [now right|left]. destruct (starts_dec (c :: p)) as [S1|S1]; [left; right; auto|right]. split; [exact E|]. split; [discriminate|exact S1].
Qed.
Lemma slash_unschemed w : starts (s "/") w -> ~ looks_schemed w.
Proof. intros (z & ->) (x & y & Q & I). destruct x as [|c x]; [discriminate Q|]. injection Q as <- Q. apply I. now left. Qed.
Lemma relative_part_textual : textual relative_part (fun w => located w /\ ~ looks_schemed w).
Proof.
  apply textual_seal; [reflexivity|]. eapply textual_ext; [apply textual_alt; [apply textual_alt; [apply textual_alt; [apply net_textual|apply path_absolute_textual]|apply noscheme_textual]|apply path_empty_textual]|].
  intro w. unfold located. split.
  - intros [[[(a & p & -> & A1 & (E & Z))|(E & Z & Z2)]|(E & Nw & Z & K)]| ->].
    + split; [|apply slash_unschemed; exists (s "/" ++ a ++ p); reflexivity]. exists (s "//" ++ a), p. split; [reflexivity|]. split; [exact E|]. left. split; [eauto|exact Z].
    + split; [|now apply slash_unschemed]. exists [], w. auto.
    + split; [|exact K]. exists [], w. split; [reflexivity|]. split; [exact E|]. right. split; [reflexivity|]. intros (y & ->). apply Z. exists (s "/" ++ y). reflexivity.
    + split; [|intros (x & y & Q & _); destruct x; discriminate Q]. exists [], []. split; [reflexivity|]. split; [constructor|]. right. split; [reflexivity|]. intros (y & Q). discriminate Q.
  - intros ((a & p & -> & E & [((x & -> & X) & Z)|(-> & Z)]) & K); [left; left; left; exists x, p; repeat split; auto|]. cbn [app] in *. destruct p as [|c p]; [now right|left]. destruct (starts_dec (c :: p)) as [S1|S1]; [left; right; auto|right]. split; [exact E|]. split; [discriminate|auto].
Qed.
Lemma perhaps_query : textual (maybe_str (add (lit "?") query)) (perhaps_text 63 query_text).
Proof. apply perhaps_textual, lit_before; [apply (@lit1 "?"); reflexivity|apply query_textual]. Qed.
Lemma perhaps_fragment : textual (maybe_str (add (lit "#") fragment)) (perhaps_text 35 query_text).
Proof. apply perhaps_textual, lit_before; [apply (@lit1 "#"); reflexivity|apply fragment_textual]. Qed.
Lemma absolute_part_textual : textual (add (add (add scheme (lit ":")) hier_part) (maybe_str (add (lit "?") query))) absolute_text.
Proof.
  eapply textual_ext; [apply textual_add; [apply textual_add; [apply textual_add; [apply scheme_textual|apply (@lit1 ":"); reflexivity]|apply hier_textual]|apply perhaps_query]|].
  intro w. unfold absolute_text. split.
  - intros (u & q & -> & (u' & h & -> & (x & ? & -> & X & ->) & H) & Q). exists x, h, q. change (s ":") with [58%N]. rewrite <- !app_assoc. auto.
  - intros (x & h & q & -> & X & H & Q). exists ((x ++ [58%N]) ++ h), q. split; [now rewrite <- !app_assoc|]. split; [|exact Q]. exists (x ++ [58%N]), h. split; [reflexivity|]. split; [|exact H]. exists x, [58%N]. auto.
Qed.
Lemma absolute_textual : textual absolute_URI absolute_text.
Proof. apply textual_seal; [reflexivity|]. apply absolute_part_textual. Qed.
Lemma uri_textual : textual URI uri_text.
Proof. apply textual_seal; [reflexivity|]. apply textual_add; [apply absolute_part_textual|apply perhaps_fragment]. Qed.
Lemma partial_part_textual : textual (add relative_part (maybe_str (add (lit "?") query))) partial_text.
Proof.
  eapply textual_ext; [apply textual_add; [apply relative_part_textual|apply perhaps_query]|]. intro w. unfold partial_text. split.
  - intros (h & q & -> & (H & K) & Q). exists h, q. auto.
  - intros (h & q & -> & H & K & Q). exists h, q. auto.
Qed.
Lemma partial_textual : textual partial_URI partial_text.
Proof. apply textual_seal; [reflexivity|]. apply partial_part_textual. Qed.
Lemma relative_textual : textual relative_ref relative_text.
Proof. apply textual_seal; [reflexivity|]. apply textual_add; [apply partial_part_textual|apply perhaps_fragment]. Qed.
Lemma reference_textual : textual URI_reference reference_text.
Proof. apply textual_seal; [reflexivity|]. apply textual_alt; [apply uri_textual|apply relative_textual]. Qed.
Lemma origin_textual : textual origin_form origin_text.
Proof.
  apply textual_seal; [reflexivity|]. eapply textual_ext; [apply textual_add; [apply absolute_path_textual|apply perhaps_query]|]. intro w. unfold origin_text. split.
  - intros (p & q & -> & (E & Z) & Q). exists p, q. auto.
  - intros (p & q & -> & E & Z & Q). exists p, q. auto.
Qed.
Lemma target_textual : textual request_target target_text.
Proof.
  apply textual_seal; [reflexivity|]. eapply textual_ext; [apply textual_alt; [apply textual_alt; [apply textual_alt; [apply origin_textual|apply textual_seal; [reflexivity|apply absolute_textual]]|apply textual_seal; [reflexivity|apply authority_textual]]|apply textual_seal; [reflexivity|apply star_textual; reflexivity]]|].
  intro w. unfold target_text. tauto.
Qed.
End Uri.
