(** C81: what reports say about parse errors. *)
From Coq Require Import ZifyBool ZifyNat ZifyN String Permutation.
From Verif Require Import Base Earley EarleySpec EarleyChart EarleyItems EarleySearch EarleyTerm EarleyTop EarleyMain Parse P_Earley Grammar GrammarWF Syntax Reading P_Grammar GrammarSem Known Header Text P_Util Structure Actions Citation Templates TextReport Reports P_Reports Html P_Html P_Display Details.
Open Scope nat_scope.
Open Scope list_scope.
Unset Strict Implicit.
Local Open Scope string_scope.
Local Open Scope list_scope.

(** ** Specification *)

(** One alternative: what was expected, and as part of what. *)
Definition line (o : str * list str) : str := fst o ++ match snd o with [] => [] | l => s " as part of " ++ join (s " or ") l end.
Definition lines (l : list (str * list str)) : list str :=
  match l with [] => [] | o :: l' => line o :: map (fun o => s "or " ++ line o) l' end.
(** A symbol is shown with the title of the document that defines it. *)
Definition symbol_text (x : str * option cite) : str :=
  printable (fst x) ++ match snd x with Some c => s " (" ++ match cite_title c with Some t => t | None => [] end ++ s ")" | None => [] end.
Definition citable (x : str * option cite) : Prop := forall c, snd x = Some c -> cite_valid c = true /\ cite_title c <> None.

Section Spec.
Context {G : grammar}.
(** All characters in the grammar are bytes. *)
Definition bytes_only (T : nt G) : Prop :=
  forall B r bits c, reach T B -> In r (g_rules B) -> In (Tm bits) (g_rhs r) -> N.testbit bits c = true -> (c < 256)%N.
(** [n] bytes of [data] can be continued, and no more. *)
Definition stuck (T : nt G) (data : str) (n : nat) : Prop :=
  n <= List.length data /\ viable T (firstn n data) /\ forall k, n < k -> k <= List.length data -> ~ viable T (firstn k data).
(** What follows. *)
Definition follows_as (data : str) (n : nat) (text : str) : Prop :=
  match nth_error data n with
  | None => text = s "Found end of data."
  | Some c => exists d, text = s "Found: " ++ d /\ read_description d = [c]
  end.
(** Symbol [p] occurs in the language of [T] so that it has the last of these
    bytes, or begins after them, and then has [c]. *)
Definition part_with (T p : nt G) (data : str) (n : nat) (c : N) : Prop :=
  exists u v w x, firstn n data = u ++ v /\ generates p (v ++ c :: w) /\ generates T (u ++ (v ++ c :: w) ++ x).
End Spec.

(** ** Proofs *)

Definition END : str := s "end of data".
Definition fmt (bits : N) : str := format_chars (chars_of bits).

Lemma chars_in bits c : In c (chars_of bits) <-> (c < 256)%N /\ N.testbit bits c = true.
Proof.
  unfold chars_of. rewrite filter_In, in_map_iff. split.
  - intros [[i [<- I]] T]. apply in_seq in I. split; [lia|exact T].
  - intros [L T]. split; [|exact T]. exists (N.to_nat c). split; [lia|]. apply in_seq. lia.
Qed.
Lemma chars_nodup bits : NoDup (chars_of bits).
Proof. unfold chars_of. apply NoDup_filter. apply FinFun.Injective_map_NoDup; [intros a b; lia|apply seq_NoDup]. Qed.
Lemma read_fmt bits c : In c (read_description (fmt bits)) <-> (c < 256)%N /\ N.testbit bits c = true.
Proof.
  rewrite <- chars_in. unfold fmt. assert (B : forall c, In c (chars_of bits) -> (c < 256)%N) by (intros x I; now apply chars_in in I).
  pose proof (C48_descriptions B) as P. split; intro I; [exact (Permutation_in _ P I)|exact (Permutation_in _ (Permutation_sym P) I)].
Qed.
Lemma nodup_check l : NoDup l -> existsb (fun c => Nat.ltb 1 (count_occ N.eq_dec l c)) l = true -> False.
Proof.
  intros N H. apply existsb_exists in H. destruct H as [c [_ L]]. pose proof (proj1 (NoDup_count_occ N.eq_dec l) N c) as K. apply Nat.ltb_lt in L. lia.
Qed.
Lemma read_end : read_description END = END.
Proof. vm_compute. reflexivity. Qed.
Lemma end_repeats : ~ NoDup END.
Proof. intro N. apply (nodup_check N). vm_compute. reflexivity. Qed.
Lemma unlike_end l : NoDup l -> (forall c, In c l -> (c < 256)%N) -> format_chars l <> END.
Proof.
  intros N B E. pose proof (C48_descriptions B) as P. rewrite E, read_end in P. exact (end_repeats (Permutation_NoDup (Permutation_sym P) N)).
Qed.
Lemma fmt_end bits : fmt bits <> END.
Proof. apply unlike_end; [apply chars_nodup|]. intros c I. apply chars_in in I. apply I. Qed.

Section Group.
Context {G : grammar}.
Notation dict := (@expected_dict G).

Lemma update_keys k ps (d : dict) x : In x (map fst (update_expected k ps d)) <-> In x (map fst d) \/ x = k.
Proof.
  induction d as [|[a v] d IH]; cbn [update_expected map fst In]; [intuition|]. destruct (str_eqb a k) eqn:E; cbn [map fst In].
  - apply str_eqb_eq in E. subst a. intuition.
  - rewrite IH. intuition.
Qed.
Lemma update_nodup k ps (d : dict) : NoDup (map fst d) -> NoDup (map fst (update_expected k ps d)).
Proof.
  induction d as [|[a v] d IH]; intro N; cbn [update_expected map fst] in *; [repeat constructor; intros []|].
  inversion N as [| ? ? N1 N2]; subst. destruct (str_eqb a k) eqn:E; cbn [map fst]; constructor; auto.
  rewrite update_keys. intros [I | ->]; [contradiction|]. assert (T : str_eqb k k = true) by (now apply str_eqb_eq). congruence.
Qed.
Lemma update_in k ps (d : dict) x v : NoDup (map fst d) -> (In (x, v) (update_expected k ps d) <->
  (x <> k /\ In (x, v) d) \/ (x = k /\ ((exists l, In (k, l) d /\ v = option_map (fun l => l ++ ps) l) \/ (~ In k (map fst d) /\ v = Some ps)))).
Proof.
  induction d as [|[a l] d IH]; intro N; cbn [update_expected map fst In] in *.
  - split.
    + intros [H|[]]. injection H as <- <-. right. split; [reflexivity|]. right. split; [intros []|reflexivity].
    + intros [[_ []]|[-> [[l [[] _]]|[_ ->]]]]. now left.
  - inversion N as [| ? ? N1 N2]; subst. destruct (str_eqb a k) eqn:E; cbn [In].
    + apply str_eqb_eq in E. subst a. split.
      * intros [H|I].
        -- injection H as <- <-. right. split; [reflexivity|]. left. exists l. split; [now left|reflexivity].
        -- left. split; [|now right]. intros ->. apply N1. apply in_map_iff. exists (k, v). auto.
      * intros [[D [H|I]]|[-> [[l' [[H|I] ->]]|[H _]]]].
        -- injection H as <- <-. now destruct D.
        -- now right.
        -- injection H as <-. now left.
        -- exfalso. apply N1. apply in_map_iff. exists (k, l'). auto.
        -- exfalso. apply H. now left.
    + assert (D : a <> k) by (intros ->; assert (T : str_eqb k k = true) by (now apply str_eqb_eq); congruence). rewrite (IH N2). split.
      * intros [H|[[D' I]|[-> [[l' [I ->]]|[H ->]]]]].
        -- injection H as <- <-. left. split; [exact D|now left].
        -- left. split; [exact D'|now right].
        -- right. split; [reflexivity|]. left. exists l'. split; [now right|reflexivity].
        -- right. split; [reflexivity|]. right. split; [|reflexivity]. intros [X|X]; [contradiction|contradiction].
      * intros [[D' [H|I]]|[-> [[l' [[H|I] ->]]|[H ->]]]].
        -- now left.
        -- right. left. auto.
        -- injection H as -> <-. now destruct D.
        -- right. right. split; [reflexivity|]. left. exists l'. auto.
        -- right. right. split; [reflexivity|]. right. split; [|reflexivity]. intro I. apply H. now right.
Qed.
Lemma end_keys (d : dict) x : In x (map fst (expect_end d)) <-> In x (map fst d) \/ x = END.
Proof.
  induction d as [|[a v] d IH]; cbn [expect_end map fst In]; [intuition|]. destruct (str_eqb a (s "end of data")) eqn:E; cbn [map fst In].
  - apply str_eqb_eq in E. subst a. unfold END. intuition.
  - rewrite IH. intuition.
Qed.
Lemma end_nodup (d : dict) : NoDup (map fst d) -> NoDup (map fst (expect_end d)).
Proof.
  induction d as [|[a v] d IH]; intro N; cbn [expect_end map fst] in *; [repeat constructor; intros []|].
  inversion N as [| ? ? N1 N2]; subst. destruct (str_eqb a (s "end of data")) eqn:E; cbn [map fst]; constructor; auto.
  rewrite end_keys. intros [I | ->]; [contradiction|]. assert (T : str_eqb END (s "end of data") = true) by (now apply str_eqb_eq). congruence.
Qed.
Lemma end_in (d : dict) x v : NoDup (map fst d) -> (In (x, v) (expect_end d) <-> (x <> END /\ In (x, v) d) \/ (x = END /\ v = None)).
Proof.
  induction d as [|[a l] d IH]; intro N; cbn [expect_end map fst In] in *.
  - split; [intros [H|[]]; injection H as <- <-; now right|]. intros [[_ []]|[-> ->]]. now left.
  - inversion N as [| ? ? N1 N2]; subst. destruct (str_eqb a (s "end of data")) eqn:E; cbn [In].
    + apply str_eqb_eq in E. subst a. fold END in *. split.
      * intros [H|I]; [injection H as <- <-; now right|]. left. split; [|now right]. intros ->. apply N1. apply in_map_iff. exists (END, v). auto.
      * intros [[D [H|I]]|[-> ->]]; [|now right|now left]. injection H as <- <-. now destruct D.
    + assert (D : a <> END) by (intros ->; assert (T : str_eqb END (s "end of data") = true) by (now apply str_eqb_eq); congruence). rewrite (IH N2). split.
      * intros [H|[[D' I]|[-> ->]]]; [injection H as <- <-; left; split; [exact D|now left]|left; split; [exact D'|now right]|now right].
      * intros [[D' [H|I]]|[-> ->]]; [now left|right; left; auto|right; right; auto].
Qed.

Lemma group_snoc (l : list (@expectation G)) e :
  group (l ++ [e]) = match e with ExpTerminal bits ps => update_expected (fmt bits) ps (group l) | ExpEnd => expect_end (group l) end.
Proof. unfold group. rewrite fold_left_app. cbn [fold_left]. destruct e as [bits ps|]; [|reflexivity]. change (fmt bits) with (format_chars (chars_of bits)). reflexivity. Qed.
(** Every description occurs once, with the symbols of all terminals that have
    it. *)
Lemma group_spec (l : list (@expectation G)) :
  NoDup (map fst (group l)) /\
  (forall k, In k (map fst (group l)) <-> (exists bits ps, In (ExpTerminal bits ps) l /\ k = fmt bits) \/ (In ExpEnd l /\ k = END)) /\
  (forall k v, In (k, v) (group l) -> match v with
     | None => k = END
     | Some qs => k <> END /\ forall p, In p qs <-> exists bits ps, In (ExpTerminal bits ps) l /\ k = fmt bits /\ In p ps
     end).
Proof.
  induction l as [|e l IH] using rev_ind.
  - unfold group. cbn [fold_left map In]. split; [constructor|]. split; [intro k; split; [intros []|intros [[b [q [[] _]]]|[[] _]]]|intros k v []].
  - destruct IH as [N [K V]]. rewrite group_snoc. destruct e as [bits ps|].
    + split; [now apply update_nodup|]. split.
      * intro k. rewrite update_keys, K. split.
        -- intros [[[b [q [I ->]]]|[I ->]] | ->].
           ++ left. exists b, q. split; [apply in_or_app; now left|reflexivity].
           ++ right. split; [apply in_or_app; now left|reflexivity].
           ++ left. exists bits, ps. split; [apply in_or_app; right; now left|reflexivity].
        -- intros [[b [q [I ->]]]|[I ->]]; apply in_app_or in I.
           ++ destruct I as [I|[H|[]]]; [left; left; eauto|]. injection H as -> ->. now right.
           ++ destruct I as [I|[H|[]]]; [left; right; auto|discriminate H].
      * intros k v I. apply (update_in _ _ _ _ N) in I. destruct I as [[D I]|[-> [[o [I ->]]|[H ->]]]].
        -- specialize (V k v I). destruct v as [qs|]; [|exact V]. destruct V as [NE V]. split; [exact NE|]. intro p. rewrite V. split.
           ++ intros [b [q [J [E P]]]]. exists b, q. split; [apply in_or_app; now left|auto].
           ++ intros [b [q [J [E P]]]]. apply in_app_or in J. destruct J as [J|[H|[]]]; [eauto|]. injection H as -> ->. now destruct D.
        -- specialize (V _ _ I). destruct o as [qs|]; cbn [option_map]; [|destruct (fmt_end V)]. destruct V as [NE V]. split; [exact NE|]. intro p. rewrite in_app_iff, V. split.
           ++ intros [[b [q [J [E P]]]]|P]; [exists b, q; split; [apply in_or_app; now left|auto]|exists bits, ps; split; [apply in_or_app; right; now left|auto]].
           ++ intros [b [q [J [E P]]]]. apply in_app_or in J. destruct J as [J|[H|[]]]; [left; eauto|]. injection H as -> ->. now right.
        -- split; [apply fmt_end|]. intro p. split.
           ++ intro P. exists bits, ps. split; [apply in_or_app; right; now left|auto].
           ++ intros [b [q [J [E P]]]]. apply in_app_or in J. destruct J as [J|[X|[]]]; [|injection X as -> ->; exact P].
              destruct H. apply K. left. exists b, q. split; [exact J|exact E].
    + split; [now apply end_nodup|]. split.
      * intro k. rewrite end_keys, K. split.
        -- intros [[[b [q [I ->]]]|[I ->]] | ->].
           ++ left. exists b, q. split; [apply in_or_app; now left|reflexivity].
           ++ right. split; [apply in_or_app; now left|reflexivity].
           ++ right. split; [apply in_or_app; right; now left|reflexivity].
        -- intros [[b [q [I ->]]]|[I ->]]; [|now right]. apply in_app_or in I. destruct I as [I|[H|[]]]; [left; left; eauto|discriminate H].
      * intros k v I. apply (end_in _ _ N) in I. destruct I as [[D I]|[-> ->]]; [|reflexivity]. specialize (V k v I). destruct v as [qs|]; [|exact V].
        destruct V as [NE V]. split; [exact NE|]. intro p. rewrite V. split; intros [b [q [J [E P]]]]; exists b, q.
        -- split; [apply in_or_app; now left|auto].
        -- apply in_app_or in J. destruct J as [J|[H|[]]]; [auto|discriminate H].
Qed.
End Group.

(** *** Rendering *)
Lemma join_in sep l c : In c (join sep l) -> In c sep \/ exists x, In x l /\ In c x.
Proof.
  induction l as [|x l IH]; intro I; [destruct I|]. destruct l as [|y l].
  - right. exists x. split; [now left|exact I].
  - change (join sep (x :: y :: l)) with (x ++ sep ++ join sep (y :: l)) in I. apply in_app_or in I. destruct I as [I|I]; [right; exists x; split; [now left|exact I]|].
    apply in_app_or in I. destruct I as [I|I]; [now left|]. destruct (IH I) as [J|[z [J K]]]; [now left|]. right. exists z. split; [now right|exact K].
Qed.
Lemma low_clean c : (32 <= c)%N -> (c < 127)%N -> unprintable c = false.
Proof. unfold unprintable. lia. Qed.
Lemma ranges_clean show l x : (forall c, In c l -> clean (show c)) -> In x (char_ranges show l) -> clean x.
Proof.
  intros H I. apply in_map_iff in I. destruct I as [i [<- I]]. destruct (intervals_spec l (cur:=None) Logic.I) as [_ K]. destruct (K i I) as (_ & [[]|Hf] & [[]|Hs]).
  unfold show_interval. destruct (fst i =? snd i)%N; [now apply H|]. apply clean_app; [now apply H|]. apply clean_app; [|now apply H]. intros c [<-|[]]. reflexivity.
Qed.
Lemma format_clean l : (forall c, In c l -> (c < 256)%N) -> clean (format_chars l).
Proof.
  intro B. unfold format_chars. intros c I. apply join_in in I. destruct I as [I|[x [J I]]].
  - assert (W : clean (s " or ")) by (apply clean_by; reflexivity). now apply W.
  - revert c I. change (clean x). unfold format_pieces in J. apply filter_In in J. destruct J as [J _].
    repeat (apply in_app_or in J; destruct J as [J|J]).
    + revert J. apply ranges_clean. intros c Hc x' [<-|[]]. apply filter_In in Hc. destruct Hc as [_ Hc]. destruct (category_of c) eqn:E; try discriminate Hc.
      unfold category_of in E. destruct (is_letter c) eqn:L; [|destruct (is_digit c); [discriminate E|]; destruct (char_name c); [discriminate E|]; destruct (_ && _); discriminate E].
      unfold is_letter in L. apply low_clean; lia.
    + revert J. apply ranges_clean. intros c Hc x' [<-|[]]. apply filter_In in Hc. destruct Hc as [_ Hc]. destruct (category_of c) eqn:E; try discriminate Hc.
      unfold category_of in E. destruct (is_letter c); [discriminate E|]. destruct (is_digit c) eqn:L; [|destruct (char_name c); [discriminate E|]; destruct (_ && _); discriminate E].
      unfold is_digit in L. apply low_clean; lia.
    + apply in_map_iff in J. destruct J as [c [<- _]]. unfold name_of, char_name. destruct (find _ char_names) as [[k n]|] eqn:F; [|intros c' []]. apply find_some in F. destruct F as [F _]. cbn [option_map snd].
      assert (W : forallb (fun e => negb (existsb unprintable (snd e))) char_names = true) by (vm_compute; reflexivity). rewrite forallb_forall in W. apply W in F. apply negb_true_iff in F. apply clean_by, F.
    + destruct J as [<-|[]]. intros c Hc. apply filter_In in Hc. destruct Hc as [_ Hc]. destruct (category_of c) eqn:E; try discriminate Hc.
      unfold category_of in E. destruct (is_letter c); [discriminate E|]. destruct (is_digit c); [discriminate E|]. destruct (char_name c); [discriminate E|]. destruct (_ && _) eqn:L; [|discriminate E].
      apply low_clean; lia.
    + revert J. apply ranges_clean. intros c Hc. apply filter_In in Hc. destruct Hc as [Hc _]. apply B in Hc. assert (X : (c / 16 < 16)%N) by (apply N.div_lt_upper_bound; lia). assert (Y : (c mod 16 < 16)%N) by (apply N.mod_lt; lia).
      assert (Z : forall d, (d < 16)%N -> unprintable (hex_c d) = false) by (intros d D; unfold hex_c; destruct (d <? 10)%N eqn:T; apply low_clean; lia).
      intros x' [<-|[<-|[<-|[<-|[]]]]]; [reflexivity|reflexivity|now apply Z|now apply Z].
Qed.
Lemma fmt_clean bits : clean (fmt bits).
Proof. apply format_clean. intros c I. apply chars_in in I. apply I. Qed.
Definition detail_text (d : detail) : str := match d with Say x => printable x | Sym n c => symbol_text (n, c) end.
Definition detail_fine (d : detail) : Prop := match d with Say _ => True | Sym n c => citable (n, c) end.
Lemma detail_shown d : detail_fine d -> exists l, detail_html d = Some l /\ flat_map text_of l = detail_text d.
Proof.
  destruct d as [x|n [c|]]; cbn [detail_html detail_text detail_fine]; intro F.
  - eexists. split; [reflexivity|]. cbn [flat_map text_of]. apply app_nil_r.
  - destruct (F c eq_refl) as [V T]. unfold cite_html. rewrite V. unfold symbol_text. cbn [fst snd]. destruct (cite_title c) as [t|]; [|now destruct T].
    eexists. split; [reflexivity|]. cbn [flat_map text_of app]. now rewrite !app_nil_r.
  - eexists. split; [reflexivity|]. cbn [flat_map text_of]. unfold symbol_text. cbn [fst snd]. reflexivity.
Qed.
Lemma all_shown para : Forall detail_fine para -> exists l, all_of detail_html para = Some l /\ flat_map text_of l = flat_map detail_text para.
Proof.
  intro F. induction F as [|d para D F [l [E T]]]; cbn [all_of]; [exists []; auto|]. destruct (detail_shown D) as [x [-> X]]. rewrite E. exists (x ++ l). split; [reflexivity|].
  rewrite flat_map_app, T, X. reflexivity.
Qed.
Lemma failure_shown e : Forall (Forall detail_fine) (expand_parse_error e) ->
  exists l, failure_html (FParse e) = Some l /\ Forall (fun h => exists kids, h = Elem "p" [] kids) l /\ map text_of l = map (flat_map detail_text) (expand_parse_error e).
Proof.
  cbn [failure_html]. intro F. induction F as [|para paras P F [l [E [K T]]]]; [exists []; auto|]. cbn [all_of]. destruct (all_shown P) as [x [X Y]]. rewrite X, E. cbn [option_map].
  exists (Elem "p" [] x :: l). split; [reflexivity|]. split; [constructor; [now exists x|exact K]|]. cbn [map text_of]. now rewrite T, Y.
Qed.
Lemma symbols_text l : flat_map detail_text (match l with [] => [] | (n, c) :: l' => Sym n c :: flat_map (fun y => [Say (s " or "); Sym (fst y) (snd y)]) l' end) = join (s " or ") (map symbol_text l).
Proof.
  destruct l as [|[n c] l]; [reflexivity|]. revert n c. induction l as [|[n' c'] l IH]; intros n c.
  - cbn [flat_map detail_text map join]. apply app_nil_r.
  - change (map symbol_text ((n, c) :: (n', c') :: l)) with (symbol_text (n, c) :: map symbol_text ((n', c') :: l)).
    change (join (s " or ") (symbol_text (n, c) :: map symbol_text ((n', c') :: l))) with (symbol_text (n, c) ++ s " or " ++ join (s " or ") (map symbol_text ((n', c') :: l))).
    rewrite <- (IH n' c'). reflexivity.
Qed.
Lemma clean_text x : existsb unprintable x = false -> printable x = x.
Proof. intro H. now apply printable_same, clean_by. Qed.
Lemma para_text first d ps : d <> [] -> clean d ->
  flat_map detail_text (expected_para first (Some d, ps)) = (if first then [] else s "or ") ++ line (d, map symbol_text ps).
Proof.
  intros N C. unfold expected_para. cbn [fst snd]. destruct d as [|c x]; [now destruct N|]. rewrite flat_map_app, symbols_text.
  assert (O : printable (s "or ") = s "or ") by (apply clean_text; reflexivity). assert (A : printable (s " as part of ") = s " as part of ") by (apply clean_text; reflexivity).
  assert (D : printable (c :: x) = c :: x) by (now apply printable_same). unfold line. cbn [fst snd].
  rewrite flat_map_app. rewrite <- !app_assoc.
  assert (F : flat_map detail_text (if first then [Say (c :: x)] else [Say (s "or "); Say (c :: x)]) = (if first then [] else s "or ") ++ c :: x).
  { destruct first; cbn [flat_map detail_text]; rewrite ?app_nil_r, D, ?O; reflexivity. }
  rewrite F, <- app_assoc. f_equal. f_equal. destruct ps as [|p ps]; [reflexivity|]. cbn [flat_map detail_text map]. now rewrite app_nil_r, A.
Qed.
Lemma paras_text (l : list (str * list (str * option cite))) : (forall d ps, In (d, ps) l -> d <> [] /\ clean d) ->
  map (flat_map detail_text) (match map (fun o => (Some (fst o), snd o)) l with [] => [] | o :: l => expected_para true o :: map (expected_para false) l end) =
  lines (map (fun o => (fst o, map symbol_text (snd o))) l).
Proof.
  intro H. destruct l as [|[d ps] l]; [reflexivity|]. cbn [map fst snd lines]. destruct (H d ps (or_introl eq_refl)) as [N C]. rewrite (para_text true _ N C). f_equal.
  rewrite !map_map. apply map_ext_in. intros [d' ps'] I. cbn [fst snd]. destruct (H d' ps' (or_intror I)) as [N' C']. now rewrite (para_text false _ N' C').
Qed.
Lemma show_clean n : clean (show (Z.of_nat n)).
Proof. destruct n; cbn [Z.of_nat show]; [apply clean_by; reflexivity|]. apply dec_clean. Qed.

(** *** Terminals that are expected *)
Lemma expected_terminal (G : grammar) (R : Type) leaf act act_rep (T : nt G) data e bits ps :
  productive T -> bytes_only T -> returns leaf act act_rep data T (@Rejected G R e) -> In (ExpTerminal bits ps) (Earley.pe_expected e) ->
  (exists c, N.testbit bits c = true) /\ forall c, N.testbit bits c = true -> (c < 256)%N.
Proof.
  intros PT BO [f H] I. destruct (rejected_error H) as [chart [EX [Z B]]]. destruct (error_items EX Z B) as [L [_ [_ [_ [ET [EE _]]]]]].
  apply ET in I. destruct I as [it [V [N P]]]. destruct V as [V1 [V2 [V3 V4]]]. unfold next_sym in N. split.
  - destruct (PT _ _ (predicted_reach V1) V2) as [w W].
    assert (Es : g_rhs (it_rl it) = firstn (it_pos it) (g_rhs (it_rl it)) ++ Tm bits :: skipn (S (it_pos it)) (g_rhs (it_rl it))).
    { rewrite <- (firstn_skipn (it_pos it) (g_rhs (it_rl it))) at 1. f_equal. clear - N.
      revert N. generalize (it_pos it). induction (g_rhs (it_rl it)) as [|x l IH]; intros [|pos] N; simpl in *; try discriminate.
      - congruence.
      - now apply IH. }
    rewrite Es in W. apply derives_split in W. destruct W as [w1 [w2 [_ [_ W2]]]]. inversion W2; subst. eauto.
  - intros c M. apply (BO _ _ bits c (predicted_reach V1) V2); [|exact M]. now apply nth_error_In in N.
Qed.

(** *** A pivot is found if the whole is one *)
Section Pivots.
Context {G : grammar}.
(** One step from a symbol and where it starts to the symbol that it is part of. *)
Definition up (chart : list (list (item G))) (a b : nt G * nat) : Prop :=
  exists it, In it (nth (snd a) chart []) /\ waits (fst a) it = true /\ b = (it_nt it, it_start it).
Inductive path (chart : list (list (item G))) (z : nt G * nat) : list (nt G * nat) -> nt G * nat -> Prop :=
| path_end : path chart z [] z
| path_step a b l : up chart a b -> path chart z l b -> path chart z (a :: l) a.
Lemma path_last chart z l a : path chart z l a -> l = [] -> a = z.
Proof. intros [|? ? ? ? ?] E; [reflexivity|discriminate]. Qed.
Lemma path_from chart z l a b : path chart z l a -> In b l -> exists l1 l2, l = l1 ++ l2 /\ path chart z l2 b.
Proof.
  intro P. induction P as [|a b' l U P IH]; intro I; [destruct I|]. destruct I as [<-|I].
  - exists [], (a :: l). split; [reflexivity|now apply path_step with b'].
  - destruct (IH I) as [l1 [l2 [-> Q]]]. exists (a :: l1), l2. auto.
Qed.
Lemma node_dec (a b : nt G * nat) : {a = b} + {a <> b}.
Proof. decide equality; [apply Nat.eq_dec|apply nt_dec]. Qed.
(** Without repetitions. *)
Lemma path_simple chart z l a : path chart z l a -> exists l', path chart z l' a /\ NoDup l' /\ ~ In z l'.
Proof.
  intro P. induction P as [|a b l U P [l' [Q [N Z]]]].
  - exists []. split; [constructor|]. split; [constructor|intros []].
  - destruct (node_dec a z) as [->|NZ]; [exists []; split; [constructor|]; split; [constructor|intros []]|].
    destruct (in_dec node_dec a l') as [I|I].
    + destruct (path_from Q I) as [l1 [l2 [-> Q2]]]. exists l2. split; [exact Q2|]. split.
      * clear -N. induction l1; [exact N|]. inversion N; subst. auto.
      * intro J. apply Z, in_or_app. now right.
    + exists (a :: l'). split; [now apply path_step with b|]. split; [now constructor|]. intros [E|J]; auto.
Qed.
Lemma predicted_path data T chart : (forall i it, In it (nth i chart []) <-> valid data T i it) ->
  forall k A, predicted data T k A -> exists l, path chart (T, 0) l (A, k).
Proof.
  intros EX k A P. induction P as [|k A r pos B i P [l IH] Ir N D]; [exists []; constructor|].
  exists ((B, i) :: l). apply path_step with (A, k); [|exact IH].
  exists (Item A r pos k). cbn [fst snd it_nt it_start]. split; [|split; [|reflexivity]].
  - apply EX. assert (L : pos <= List.length (g_rhs r)) by (pose proof (proj1 (nth_error_Some (g_rhs r) pos)) as H; rewrite N in H; assert (pos < List.length (g_rhs r)) by (apply H; discriminate); lia).
    repeat split; cbn [it_nt it_rl it_pos it_start]; auto.
  - unfold waits, next_sym. cbn [it_rl it_pos]. rewrite N. now destruct (nt_dec B B).
Qed.
Lemma pivots_some chart (T : nt G) k0 : g_pivot T = true ->
  forall l a, path chart (T, k0) l a -> NoDup l -> ~ In (T, k0) l ->
  forall f stack ps, (forall b, In b stack -> ~ In b l) -> ~ In (T, k0) stack -> find_pivots f chart (fst a) (snd a) stack = Done ps -> ps <> [].
Proof.
  intros PV l a P. induction P as [|a b l U P IH]; intros N Z f stack ps D ZS H; (destruct f as [|f]; [discriminate|]); cbn [find_pivots] in H.
  - cbn [fst snd] in H. rewrite PV in H. injection H as <-. discriminate.
  - destruct (g_pivot (fst a)); [injection H as <-; discriminate|]. inversion N as [| ? ? N1 N2]; subst. destruct U as [it [I [W ->]]].
    match type of H with concat_map_out ?g ?l = Done _ =>
      assert (E : forall ys, g it = Done ys -> ys <> [] -> ps <> []) end.
    { intros ys E NE. destruct ys as [|y ys]; [now destruct NE|]. intros ->.
      assert (X : In y []) by (apply (@concat_map_in _ _ _ _ _ y H); exists it, (y :: ys); split; [apply filter_In; auto|split; [exact E|now left]]). destruct X. }
    assert (Q : exists ys, (if existsb (fun p => (if nt_dec (fst p) (it_nt it) then true else false) && (Nat.eqb (snd p) (it_start it))) (stack ++ [(fst a, snd a)])
             then Done [] else find_pivots f chart (it_nt it) (it_start it) (stack ++ [(fst a, snd a)])) = Done ys).
    { clear -H I W. assert (J : In it (filter (waits (fst a)) (nth (snd a) chart []))) by (now apply filter_In). revert H J. generalize (filter (waits (fst a)) (nth (snd a) chart [])) as ll.
      intro ll. revert ps. induction ll as [|x ll IH]; intros ps H J; [destruct J|]. cbn [concat_map_out] in H. unfold obind at 1 in H.
      match type of H with match ?y with _ => _ end = _ => destruct y eqn:F end; try discriminate. unfold obind at 1 in H.
      match type of H with match ?y with _ => _ end = _ => destruct y eqn:F2 end; try discriminate.
      destruct J as [->|J]; [eauto|]. eapply IH; eauto. }
    destruct Q as [ys Q]. apply (E ys Q). assert (AE : (fst a, snd a) = a) by (now destruct a). rewrite AE in Q.
    assert (X : existsb (fun p => (if nt_dec (fst p) (it_nt it) then true else false) && (Nat.eqb (snd p) (it_start it))) (stack ++ [a]) = false).
    { apply not_true_is_false. intro X. apply existsb_exists in X. destruct X as [[B j] [J K]]. cbn [fst snd] in K. destruct (nt_dec B (it_nt it)) as [->|]; [|discriminate].
      apply Nat.eqb_eq in K. subst j.
      assert (R : In (it_nt it, it_start it) l \/ (it_nt it, it_start it) = (T, k0)) by (inversion P as [|? ? ? ? ?]; subst; [now right|left; now left]).
      apply in_app_or in J. destruct J as [J|[J|[]]].
      - destruct R as [R|R]; [apply (D _ J); now right|rewrite R in J; contradiction].
      - destruct R as [R|R]; [rewrite <- J in R; contradiction|]. apply Z. left. congruence. }
    rewrite X in Q. apply (IH N2 (fun z => Z (or_intror z)) f (stack ++ [a]) ys); [| |exact Q].
    + intros c J K. apply in_app_or in J. destruct J as [J|[<-|[]]]; [apply (D _ J); now right|contradiction].
    + intro J. apply in_app_or in J. destruct J as [J|[J|[]]]; [contradiction|]. apply Z. left. exact J.
Qed.
End Pivots.

(** A symbol that is expected as part of something is always shown with what it is a part of, if what is parsed has a name. *)
Theorem C60_pivots_found (G : grammar) (R : Type) leaf act act_rep (T : nt G) data e bits ps :
  g_pivot T = true -> returns leaf act act_rep data T (@Rejected G R e) -> In (ExpTerminal bits ps) (Earley.pe_expected e) -> ps <> [].
Proof.
  intros PV [f H] I. destruct (rejected_error H) as [chart [EX [Z B]]]. destruct (error_items EX Z B) as [L [_ [_ [_ [ET _]]]]].
  apply ET in I. destruct I as [it [[V1 _] [_ F]]]. destruct (predicted_path EX V1) as [l P]. destruct (path_simple P) as [l' [P' [N NZ]]].
  apply (pivots_some PV P' N NZ (f := f) (stack := [])); [intros b []|intros []|exact F].
Qed.
Print Assumptions C60_pivots_found.

Section Render.
Context {G : grammar}.
Variable label : nt G -> str * option cite.
Variable elements : list (nt G) -> list (nt G).
Definition options (e : @Earley.parse_error G) : list (str * list (str * option cite)) :=
  map (fun kv => (fst kv, match snd kv with Some l => map label (elements l) | None => [] end)) (group (Earley.pe_expected e)).
Lemma error_fine e : (forall k l p, In (k, Some l) (group (Earley.pe_expected e)) -> In p (elements l) -> citable (label p)) -> Forall (Forall detail_fine) (expand_parse_error (error_of label elements e)).
Proof.
  intro C. assert (Y : forall x, Forall detail_fine [Say x]) by (intro x; constructor; [exact Logic.I|constructor]).
  unfold expand_parse_error, error_of. cbn [Html.pe_name Html.pe_position Html.pe_found Html.pe_expected].
  apply Forall_app. split; [constructor|]. apply Forall_app. split; [constructor; [apply Y|constructor]|]. apply Forall_app. split.
  { destruct (Earley.pe_found e); (constructor; [apply Y|constructor]). }
  apply Forall_app. split; [constructor; [apply Y|constructor]|].
  assert (P : forall first d ps, Forall citable ps -> Forall detail_fine (expected_para first (Some d, ps))).
  { intros first d ps H. unfold expected_para. cbn [fst snd]. apply Forall_app. split.
    - destruct d as [|c x]; [constructor|]. apply Forall_app. split; [destruct first; repeat (constructor; [exact Logic.I|]); constructor|]. destruct ps; [constructor|apply Y].
    - destruct ps as [|[n c] ps]; [constructor|]. inversion H as [| ? ? H1 H2]; subst. constructor; [exact H1|]. clear -H2. induction H2 as [|[n c] ps H1 H2 IH]; [constructor|].
      cbn [flat_map fst snd app]. constructor; [exact Logic.I|]. constructor; [exact H1|exact IH]. }
  assert (Q : forall o, In o (map (fun kv => (Some (fst kv), match snd kv with Some l => map label (elements l) | None => [] end)) (group (Earley.pe_expected e))) ->
     exists d ps, o = (Some d, ps) /\ Forall citable ps).
  { intros o I. apply in_map_iff in I. destruct I as [[k v] [<- I]]. exists k, (match v with Some l => map label (elements l) | None => [] end). split; [reflexivity|].
    destruct v as [l|]; [|constructor]. apply Forall_forall. intros x J. apply in_map_iff in J. destruct J as [p [<- J]]. exact (C _ _ _ I J). }
  revert Q. generalize (map (fun kv : str * option (list (nt G)) => (Some (fst kv), match snd kv with Some l => map label (elements l) | None => [] end)) (group (Earley.pe_expected e))).
  intros [|o l] Q; [constructor|]. constructor.
  - destruct (Q o (or_introl eq_refl)) as [d [ps [-> H]]]. now apply P.
  - apply Forall_forall. intros x I. apply in_map_iff in I. destruct I as [o' [<- I]]. destruct (Q o' (or_intror I)) as [d [ps [-> H]]]. now apply P.
Qed.
Lemma error_text e : (forall d ps, In (d, ps) (options e) -> d <> [] /\ clean d) -> (forall c, Earley.pe_found e = Some c -> (c < 256)%N) ->
  map (flat_map detail_text) (expand_parse_error (error_of label elements e)) =
  [s "Parse error at offset " ++ show (Z.of_nat (Earley.pe_position e)) ++ s ".";
   match Earley.pe_found e with None => s "Found end of data." | Some c => s "Found: " ++ format_chars [c] end; s "Expected:"] ++
  lines (map (fun o => (fst o, map symbol_text (snd o))) (options e)).
Proof.
  intros H F. unfold expand_parse_error, error_of. cbn [Html.pe_name Html.pe_position Html.pe_found Html.pe_expected].
  assert (Y : forall x, clean x -> flat_map detail_text [Say x] = x) by (intros x C; cbn [flat_map detail_text]; rewrite app_nil_r; now apply printable_same).
  rewrite !map_app. rewrite <- (paras_text H). unfold options. rewrite !map_map.
  change (map (flat_map detail_text) []) with (@nil str). rewrite app_nil_l.
  change (?a :: ?b :: ?c :: [] ++ ?d) with ([a] ++ [b] ++ [c] ++ d).
  change ([?a; ?b; ?c] ++ ?d) with ([a] ++ [b] ++ [c] ++ d).
  apply f_equal2; [|apply f_equal2; [|apply f_equal2; [|reflexivity]]].
  - change ([flat_map detail_text [Say (s "Parse error at offset " ++ show (Z.of_nat (Earley.pe_position e)) ++ s ".")]] = [s "Parse error at offset " ++ show (Z.of_nat (Earley.pe_position e)) ++ s "."]).
    rewrite Y; [reflexivity|]. apply clean_app; [apply clean_by; reflexivity|]. apply clean_app; [apply show_clean|apply clean_by; reflexivity].
  - destruct (Earley.pe_found e) as [c|].
    + change ([flat_map detail_text [Say (s "Found: " ++ format_chars [c])]] = [s "Found: " ++ format_chars [c]]). rewrite Y; [reflexivity|]. apply clean_app; [apply clean_by; reflexivity|].
      apply format_clean. intros x [<-|[]]. now apply F.
    + change ([flat_map detail_text [Say (s "Found end of data.")]] = [s "Found end of data."]). rewrite Y; [reflexivity|]. apply clean_by. reflexivity.
  - change ([flat_map detail_text [Say (s "Expected:")]] = [s "Expected:"]). rewrite Y; [reflexivity|]. apply clean_by. reflexivity.
Qed.
End Render.

(** ** C81: explanations of parse errors *)
Theorem C81_explanation (G : grammar) (R : Type) leaf act act_rep (T : nt G) (data : str) e label elements :
  productive T -> bytes_only T -> (forall c, In c data -> (c < 256)%N) ->
  (forall l, NoDup (elements l) /\ forall p, In p (elements l) <-> In p l) -> (forall p, g_pivot p = true -> citable (label p)) ->
  returns leaf act act_rep data T (@Rejected G R e) ->
  exists l n found opts,
    failure_html (FParse (error_of label elements e)) = Some l /\
    Forall (fun h => exists kids, h = Elem "p" [] kids) l /\
    map text_of l = [s "Parse error at offset " ++ show (Z.of_nat n) ++ s "."; found; s "Expected:"] ++ lines opts /\
    stuck T data n /\ follows_as data n found /\ NoDup (map fst opts) /\
    (forall c, viable T (firstn n data ++ [c]) <-> exists d ps, In (d, ps) opts /\ d <> s "end of data" /\ In c (read_description d)) /\
    (In (s "end of data") (map fst opts) <-> exists x y, firstn n data = x ++ y /\ opens T x T /\ generates T y) /\
    (forall d ps, In (d, ps) opts -> exists qs, ps = map (fun p => symbol_text (label p)) qs /\ NoDup qs /\
       (d = s "end of data" -> qs = []) /\
       (d <> s "end of data" -> read_description d <> [] /\ (g_pivot T = true -> qs <> []) /\
          forall p, In p qs -> g_pivot p = true /\ forall c, In c (read_description d) -> part_with T p data n c)).
Proof.
  intros PT BO DB EL LA RT. destruct (C04_error_exact PT RT) as [X1 [X2 [X3 [X4 X5]]]]. destruct (group_spec (Earley.pe_expected e)) as [GN [GK GV]].
  assert (FD : forall c, Earley.pe_found e = Some c -> (c < 256)%N) by (intros c H; rewrite X4 in H; apply nth_error_In in H; auto).
  assert (PIV : forall k qs p, In (k, Some qs) (group (Earley.pe_expected e)) -> In p (elements qs) ->
     g_pivot p = true /\ forall c, In c (read_description k) -> part_with T p data (Earley.pe_position e) c).
  { intros k qs p I J. destruct (GV _ _ I) as [_ V]. apply (proj2 (EL qs)), V in J. destruct J as [bits [ps [J [-> P]]]]. split.
    - destruct (expected_terminal PT BO RT J) as [[c M] B]. exact (proj1 (C60_pivots_sound PT RT J P M)).
    - intros c M. apply read_fmt in M. destruct M as [_ M]. destruct (C60_pivots_sound PT RT J P M) as [_ [u [w [v [x [E1 [E2 E3]]]]]]]. exists u, v, w, x. auto. }
  destruct (@failure_shown (error_of label elements e)) as [l [S1 [S2 S3]]].
  { apply error_fine. intros k qs p I J. apply LA. exact (proj1 (PIV _ _ _ I J)). }
  assert (KEYS : map fst (options label elements e) = map fst (group (Earley.pe_expected e))) by (unfold options; rewrite map_map; reflexivity).
  rewrite error_text in S3; [|
    | exact FD].
  2: { intros d ps I. apply (in_map fst) in I. rewrite KEYS in I. cbn [fst] in I. apply GK in I. destruct I as [[bits [q [I ->]]]|[_ ->]].
       - split; [|apply fmt_clean]. destruct (expected_terminal PT BO RT I) as [[c M] B]. intro Z.
         assert (Q : In c (read_description (fmt bits))) by (apply read_fmt; auto). rewrite Z in Q. exact Q.
       - split; [discriminate|apply clean_by; reflexivity]. }
  set (opts := map (fun o => (fst o, map symbol_text (snd o))) (options label elements e)) in *.
  assert (OK : map fst opts = map fst (group (Earley.pe_expected e))) by (unfold opts; rewrite map_map; exact KEYS).
  exists l, (Earley.pe_position e), (match Earley.pe_found e with None => s "Found end of data." | Some c => s "Found: " ++ format_chars [c] end), opts.
  split; [exact S1|]. split; [exact S2|]. split; [exact S3|]. split; [unfold stuck; auto|]. split.
  { unfold follows_as. rewrite <- X4. destruct (Earley.pe_found e) as [c|]; [|reflexivity]. exists (format_chars [c]). split; [reflexivity|].
    assert (B : forall x, In x [c] -> (x < 256)%N) by (intros x [<-|[]]; now apply FD). pose proof (C48_descriptions B) as P. now apply Permutation_length_1_inv in P || (apply Permutation_sym, Permutation_length_1_inv in P). }
  split; [rewrite OK; exact GN|]. split.
  { intro c. rewrite X5. split.
    - intros [bits [ps [I M]]]. destruct (expected_terminal PT BO RT I) as [_ B].
      assert (K : In (fmt bits) (map fst opts)) by (rewrite OK; apply GK; left; eauto). apply in_map_iff in K. destruct K as [[d qs] [E K]]. cbn [fst] in E. subst d.
      exists (fmt bits), qs. split; [exact K|]. split; [apply fmt_end|]. apply read_fmt. auto.
    - intros [d [ps [I [NE J]]]]. apply (in_map fst) in I. rewrite OK in I. cbn [fst] in I. apply GK in I. destruct I as [[bits [q [I ->]]]|[_ ->]]; [|now destruct NE].
      apply read_fmt in J. exists bits, q. split; [exact I|apply J]. }
  split.
  { rewrite OK, <- (C05_end_of_data RT). split.
    - intro I. apply GK in I. destruct I as [[bits [q [_ E]]]|[I _]]; [|exact I]. symmetry in E. destruct (fmt_end E).
    - intro I. apply GK. right. split; [exact I|reflexivity]. }
  intros d ps I. unfold opts, options in I. rewrite map_map in I. apply in_map_iff in I. destruct I as [[k v] [E I]]. cbn [fst snd] in E. injection E as -> <-.
  destruct v as [qs|].
  - exists (elements qs). rewrite map_map. split; [reflexivity|]. split; [apply EL|]. destruct (GV _ _ I) as [NE V]. split; [intro E; contradiction|]. intros _.
    assert (Kd : In d (map fst (group (Earley.pe_expected e)))) by (apply (in_map fst) in I; exact I). apply GK in Kd. destruct Kd as [[bits [q [J ->]]]|[_ E]]; [|contradiction].
    split; [|split; [|exact (fun p => PIV _ _ p I)]].
    + destruct (expected_terminal PT BO RT J) as [[c M] B]. intro Z. assert (Q : In c (read_description (fmt bits))) by (apply read_fmt; auto). rewrite Z in Q. exact Q.
    + intros PV Z. pose proof (C60_pivots_found PV RT J) as X. destruct q as [|p q]; [now apply X|].
      assert (Q : In p (elements qs)) by (apply EL, V; exists bits, (p :: q); split; [exact J|split; [reflexivity|now left]]). rewrite Z in Q. exact Q.
  - exists []. split; [reflexivity|]. split; [constructor|]. split; [reflexivity|]. intro NE. destruct (NE (GV _ _ I)).
Qed.
Print Assumptions C81_explanation.

(** *** The symbols of HTTP *)
Fixpoint octets_only (x : symbol) : bool :=
  match x with
  | Term _ b => N.leb (N.size b) 256
  | Simple _ rs => forallb (fun r => forallb octets_only (fst r)) rs
  | Repeated _ _ y => octets_only y
  | Rec n => true
  end.
Lemma octets_group x : octets_only (Grammar.group x) = octets_only x.
Proof. destruct x as [|i rs| |]; cbn [Grammar.group]; try reflexivity. now destruct (info_ephemeral i). Qed.
Lemma octets_below x : octets_only x = true -> forall z, In z (GrammarWF.below x) -> octets_only z = true.
Proof.
  induction x as [n b|i rs IH|i m y0 IH|n] using symbol_ind'; intros S z Iz; destruct Iz as [<-|Iz]; auto; try contradiction.
  - apply in_flat_map in Iz. destruct Iz as [r0 [I0 Iz]]. apply in_flat_map in Iz. destruct Iz as [y1 [I1 Iz]].
    rewrite Forall_forall in IH. specialize (IH _ I0). rewrite Forall_forall in IH. apply (IH _ I1); auto.
    cbn [octets_only] in S. rewrite forallb_forall in S. specialize (S _ I0). rewrite forallb_forall in S. now apply S.
  - cbn [octets_only] in S. destruct Iz as [<-|Iz]; [now rewrite octets_group|]. apply in_app_iff in Iz.
    destruct Iz as [Iz|Iz]; [now apply IH|]. unfold again in Iz. apply in_map_iff in Iz. destruct Iz as [k [<- _]]. exact S.
Qed.
Lemma octets_bits b c : N.leb (N.size b) 256 = true -> N.testbit b c = true -> (c < 256)%N.
Proof.
  intros L T. apply N.leb_le in L. destruct (N.eq_dec b 0) as [->|NZ]; [rewrite N.bits_0 in T; discriminate|].
  rewrite N.size_log2 in L by assumption. destruct (N.le_gt_cases c (N.log2 b)) as [K|K]; [lia|]. rewrite N.bits_above_log2 in T by assumption. discriminate.
Qed.
Lemma http_octets x : is_sane x -> octets_only x = true -> @bytes_only HG (as_nonterminal x).
Proof.
  intros S0 O0. destruct (sane_nonterminal S0) as [S _]. assert (O : octets_only (as_nonterminal x) = true) by (destruct x; cbn [as_nonterminal as_rules octets_only forallb fst] in *; auto; now rewrite O0).
  revert S O. generalize (as_nonterminal x) as y. intros y S O B r bits c RB Ir IT T.
  pose proof (sane_recs S) as K. pose proof (@reach_reachable rec_rules rec_names http_rec_known y K B RB) as IB.
  cbn [g_rhs HG sgrammar] in IT. apply in_map_iff in IT. destruct IT as [z [E Iz]]. destruct z as [n b| | |]; try discriminate E. injection E as ->.
  assert (RR : forall n r z, In n rec_names -> In r (rec_rules n) -> In z (fst r) -> octets_only z = true).
  { intros n' r' z I1 I2 I3. apply comment_rules_only in I1. subst n'.
    assert (X : forallb (fun r : rule => forallb octets_only (fst r)) (rec_rules (s "comment")) = true) by (vm_compute; reflexivity).
    rewrite forallb_forall in X. specialize (X _ I2). rewrite forallb_forall in X. auto. }
  assert (OB : forall z, In z (reachable rec_rules rec_names y) -> octets_only z = true).
  { intros z I. unfold reachable in I. apply in_app_iff in I. destruct I as [I|I]; [exact (octets_below O I)|].
    unfold rec_below in I. apply in_flat_map in I. destruct I as [m [I1 I]]. apply in_flat_map in I. destruct I as [r' [I2 I]]. apply in_flat_map in I. destruct I as [z' [I3 I]].
    exact (octets_below (RR _ _ _ I1 I2 I3) I). }
  assert (X : octets_only (Term n bits) = true).
  { destruct (not_rec B) eqn:NR.
    - apply (octets_below (OB _ IB)). exact (@below_closed rec_rules B B r (Term n bits) (below_self B) NR Ir Iz).
    - destruct B as [| | |m]; try discriminate. apply (RR m r (Term n bits)); [exact (@reachable_rec rec_rules rec_names http_rec_known y m K IB)|exact Ir|exact Iz]. }
  exact (octets_bits X T).
Qed.
Lemma all_symbols_octets x : In x all_symbols -> octets_only x = true.
Proof. assert (X : forallb octets_only all_symbols = true) by (vm_compute; reflexivity). rewrite forallb_forall in X. exact (X x). Qed.

Theorem C81_http_symbols x nested annotated data e (label : symbol -> str * option cite) elements :
  In x all_symbols -> (forall c, In c data -> (c < 256)%N) ->
  (forall l, NoDup (elements l) /\ forall p, In p (elements l) <-> In p l) -> (forall p, is_pivot p = true -> citable (label p)) ->
  Reading.reads nested annotated x data (Rejected e) ->
  let accepted w := exists r, Reading.reads nested annotated x w (Accepted r) in
  exists l n found opts,
    failure_html (FParse (@error_of HG label elements e)) = Some l /\
    Forall (fun h => exists kids, h = Elem "p" [] kids) l /\
    map text_of l = [s "Parse error at offset " ++ show (Z.of_nat n) ++ s "."; found; s "Expected:"] ++ lines opts /\
    n <= List.length data /\ (exists rest, accepted (firstn n data ++ rest)) /\
    (forall k, n < k -> k <= List.length data -> ~ exists rest, accepted (firstn k data ++ rest)) /\
    follows_as data n found /\ NoDup (map fst opts) /\
    (forall c, (exists rest, accepted (firstn n data ++ c :: rest)) <-> exists d ps, In (d, ps) opts /\ d <> s "end of data" /\ In c (read_description d)) /\
    (In (s "end of data") (map fst opts) <-> accepted (firstn n data)) /\
    (forall d ps, In (d, ps) opts -> exists qs, ps = map (fun p => symbol_text (label p)) qs /\ NoDup qs /\
       (d = s "end of data" -> qs = []) /\
       (d <> s "end of data" -> read_description d <> [] /\ (is_pivot x = true -> qs <> []) /\
          forall p, In p qs -> is_pivot p = true /\ forall c, In c (read_description d) -> @part_with HG (as_nonterminal x) p data n c)).
Proof.
  intros I DB EL LA RT accepted. pose proof (all_symbols_sane I) as S.
  assert (GN : forall w, @generates HG (as_nonterminal x) w <-> accepted w) by (intro w; apply C01_parser_accepts_language; now apply sane_wf).
  assert (VI : forall w, @viable HG (as_nonterminal x) w <-> exists rest, accepted (w ++ rest)) by (intro w; unfold viable; split; intros [rest H]; exists rest; now apply GN).
  pose proof all_symbols_unnested as U. rewrite forallb_forall in U. specialize (U x I). apply (unnested_ok S) in U.
  destruct (@C81_explanation HG _ _ _ _ (as_nonterminal x) data e label elements (sane_productive S) (http_octets S (all_symbols_octets I)) DB EL LA RT)
    as [l [n [found [opts [A1 [A2 [A3 [A4 [A5 [A6 [A7 [A8 A9]]]]]]]]]]]].
  exists l, n, found, opts. split; [exact A1|]. split; [exact A2|]. split; [exact A3|]. destruct A4 as [B1 [B2 B3]]. split; [exact B1|]. split; [now apply VI|].
  split; [intros k L1 L2 H; apply (B3 k L1 L2); now apply VI|]. split; [exact A5|]. split; [exact A6|]. split.
  - intro c. rewrite <- A7, VI. split; intros [rest H]; exists rest; [now rewrite <- app_assoc|now rewrite <- app_assoc in H].
  - split; [|].
    + rewrite A8. split.
      * intros [a [b [E [O g]]]]. pose proof (predicted_top U (opens_predicted O [])) as Z. destruct a; [|discriminate Z]. rewrite E. now apply GN.
      * intro H. exists [], (firstn n data). split; [reflexivity|]. split; [|now apply GN]. apply opens_top.
    + intros d ps J. destruct (A9 d ps J) as [qs [C1 [C2 [C3 C4]]]]. exists qs. split; [exact C1|]. split; [exact C2|]. split; [exact C3|]. intro NE. destruct (C4 NE) as [D1 [D2 D3]].
      split; [exact D1|]. split; [|exact D3]. intro PV. apply D2. destruct x; exact PV || discriminate PV.
Qed.
Print Assumptions C81_http_symbols.

(** This is about all fields whose syntax is known; everything that is expected in them is shown as a part of something. *)
Theorem C81_fields name x : syntax_for name = Some x -> In x all_symbols /\ is_pivot x = true.
Proof.
  assert (X : forallb (fun i => match hk_syntax i with Some x => (if in_dec symbol_dec x all_symbols then true else false) && is_pivot x | None => true end) header_table = true) by (vm_compute; reflexivity).
  unfold syntax_for, header_of. rewrite forallb_forall in X. induction header_table as [|i t IH]; cbn [find_header]; [discriminate|].
  destruct (ci_eq (hk_key i) name).
  - intro E. specialize (X i (or_introl eq_refl)). rewrite E in X. apply andb_true_iff in X. destruct X as [X P]. destruct (in_dec symbol_dec x all_symbols); [auto|discriminate].
  - apply IH. intros j J. apply X. now right.
Qed.
Print Assumptions C81_fields.

(** [Content-Length: 12x]. *)
Definition named_only (x : symbol) : str * option cite :=
  (match x with Simple i _ | Repeated i _ _ => match i_name i with Some n => n | None => [] end | _ => [] end, None).
Definition run (x : symbol) (data : str) :=
  @inner_parse HG (@presult val vcomplaint) p_leaf (@p_act rec_rules (pyfun (fun _ _ => (VBad, []))) (fun _ => false)) p_rep 300 data (as_nonterminal x).
Definition explained (x : symbol) (data : str) : option (list str) :=
  match run x data with Done (Rejected e) => option_map (map text_of) (failure_html (FParse (@error_of HG named_only (nodup symbol_dec) e))) | _ => None end.
Lemma explained_length : explained Content_Length (s "12x") =
  Some [s "Parse error at offset 2."; s "Found: x"; s "Expected:"; s "end of data"; s "or 0" ++ [8211%N] ++ s "9 as part of Content-Length"].
Proof. vm_compute. reflexivity. Qed.
Example C81_example : exists e l,
  Reading.reads (fun _ _ => (VBad, [])) (fun _ => false) Content_Length (s "12x") (Rejected e) /\
  failure_html (FParse (@error_of HG named_only (nodup symbol_dec) e)) = Some l /\
  map text_of l = [s "Parse error at offset 2."; s "Found: x"; s "Expected:"; s "end of data"; s "or 0" ++ [8211%N] ++ s "9 as part of Content-Length"] /\
  In Content_Length all_symbols /\ is_pivot Content_Length = true.
Proof.
  pose proof explained_length as X. unfold explained in X. destruct (run Content_Length (s "12x")) as [[r|e]| |] eqn:E; try discriminate X.
  destruct (failure_html (FParse (@error_of HG named_only (nodup symbol_dec) e))) as [l|] eqn:F; [|discriminate X]. cbn [option_map] in X.
  exists e, l. split; [exists 300; exact E|]. split; [exact F|]. split; [|apply (@C81_fields (s "Content-Length")); vm_compute; reflexivity].
  exact (f_equal (fun o => match o with Some y => y | None => [] end) X).
Qed.
