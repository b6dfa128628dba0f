(** C72: the HTML report shows the values of headers as they were sent. *)
From Coq Require Import ZifyBool ZifyNat ZifyN String.
From Verif Require Import Base Earley EarleySpec Parse P_Earley P_Parse Grammar GrammarSem GrammarWF Syntax Actions Types Nested NestedTypes Reading P_Types Text Structure Known Header HeaderProofs
  TextReport P_Util P_Reports Annotated Verbatim.
Open Scope nat_scope.
Open Scope list_scope.
Unset Strict Implicit.
Local Open Scope string_scope.
Local Open Scope list_scope.

(** A reader that does as the parser does, with known classes annotated. *)
Definition annotates (read : symbol -> str -> option (@presult val vcomplaint)) : Prop :=
  exists nst again, parses nst again /\ forall x w r, read x w = Some r -> Reading.reads (nested again) of_known_class x w (Accepted r).

(** What is shown of a value: its text, with characters that cannot be shown replaced.
    Where [codes], zeros before a number may be left out. *)
Inductive shown_as (codes : Prop) : str -> str -> Prop :=
| shown_nil : shown_as codes [] []
| shown_text t w x : shown_as codes w x -> shown_as codes (t ++ w) (printable t ++ x)
| shown_code k t w x : codes -> t <> [] -> Forall is_dec t -> shown_as codes w x -> shown_as codes (repeat 48%N k ++ t ++ w) (t ++ x).

Lemma printable_app a b : printable (a ++ b) = printable a ++ printable b.
Proof. unfold printable. apply map_app. Qed.
Lemma shown_plain codes w x : shown_as codes w x -> ~ codes -> x = printable w.
Proof. induction 1 as [|t w x H IH|k t w x C N D H IH]; intro NC; [reflexivity| |now elim NC]. now rewrite printable_app, IH. Qed.

(** ** Numbers *)
Lemma dec_value_snoc x c : dec_value (x ++ [c]) = (10 * dec_value x + (c - 48))%N.
Proof. unfold dec_value. apply dec_value_from_snoc. Qed.
Lemma dec_value_pos c x : is_dec c -> c <> 48%N -> (dec_value (c :: x) <> 0)%N.
Proof.
  intros D N. unfold dec_value. cbn [dec_value_from]. assert (P : (10 * 0 + (c - 48) <> 0)%N) by (unfold is_dec in D; lia). revert P. generalize (10 * 0 + (c - 48))%N as a.
  induction x as [|d x IH]; intros a P; cbn [dec_value_from]; [exact P|]. apply IH. lia.
Qed.
Lemma dec_digits_canonical x : forall fuel acc, Forall is_dec x -> match x with [] => False | [_] => True | c :: _ => c <> 48%N end -> (dec_value x < 10 ^ N.of_nat fuel)%N -> fuel <> 0 ->
  dec_digits fuel (dec_value x) acc = x ++ acc.
Proof.
  induction x as [|c x IH] using rev_ind; intros fuel acc F C L NF; [destruct C|]. apply Forall_app in F. destruct F as [F Fc]. inversion Fc as [|? ? D _]; subst. unfold is_dec in D.
  destruct fuel as [|fuel]; [now elim NF|]. cbn [dec_digits]. rewrite dec_value_snoc in *.
  assert (M : ((10 * dec_value x + (c - 48)) mod 10 = c - 48)%N) by (rewrite N.add_comm, N.mul_comm, N.mod_add by discriminate; apply N.mod_small; lia).
  assert (V : ((10 * dec_value x + (c - 48)) / 10 = dec_value x)%N) by (rewrite N.add_comm, N.mul_comm, N.div_add by discriminate; rewrite N.div_small by lia; reflexivity).
  rewrite M, V. replace (48 + (c - 48))%N with c by lia.
  destruct x as [|d x].
  - cbn [app]. change (dec_value []) with 0%N. destruct (N.ltb_spec (10 * 0 + (c - 48)) 10) as [_|B]; [reflexivity|lia].
  - assert (N0 : (dec_value (d :: x) <> 0)%N). { inversion F; subst. apply dec_value_pos; [assumption|]. cbn [app] in C. destruct (x ++ [c]) eqn:E; [destruct x; discriminate E|exact C]. }
    destruct (N.ltb_spec (10 * dec_value (d :: x) + (c - 48)) 10) as [B|_]; [lia|].
    rewrite IH; [now rewrite <- app_assoc|exact F| | |].
    + cbn [app] in C. destruct x; [exact Logic.I|exact C].
    + rewrite Nat2N.inj_succ, N.pow_succ_r' in L. lia.
    + intros ->. change (10 ^ N.of_nat 1)%N with 10%N in L. lia.
Qed.
Lemma dec_str_canonical x : Forall is_dec x -> match x with [] => False | [_] => True | c :: _ => c <> 48%N end -> dec_str (dec_value x) = x.
Proof. intros F C. unfold dec_str. rewrite dec_digits_canonical; [apply app_nil_r|exact F|exact C|apply size_bound|discriminate]. Qed.
(** Reading and writing a number drops leading zeros. *)
Lemma leading_zeros x : x <> [] -> Forall is_dec x -> exists k t, x = repeat 48%N k ++ t /\ t <> [] /\ Forall is_dec t /\ dec_str (dec_value x) = t /\ (hd 0%N x <> 48%N -> k = 0).
Proof.
  induction x as [|c x IH]; intros N F; [now elim N|]. inversion F as [|? ? D F']; subst. destruct (N.eq_dec c 48) as [->|NC].
  - destruct x as [|d x].
    + exists 0, [48%N]. repeat split; [discriminate|exact F].
    + destruct IH as (k & t & E & Nt & Ft & V & _); [discriminate|exact F'|]. exists (S k), t. split; [cbn [repeat app]; now rewrite <- E|]. split; [exact Nt|]. split; [exact Ft|]. split; [exact V|]. intro H. now elim H.
  - exists 0, (c :: x). split; [reflexivity|]. split; [discriminate|]. split; [exact F|]. split; [|reflexivity]. apply dec_str_canonical; [exact F|]. destruct x; [exact Logic.I|exact NC].
Qed.
Lemma printable_digits t : Forall is_dec t -> printable t = t.
Proof.
  intro F. induction F as [|c t D F IH]; [reflexivity|]. change (printable (c :: t)) with ((if unprintable c then replacement else c) :: printable t). rewrite IH.
  assert (U : unprintable c = false); [|now rewrite U]. apply not_true_iff_false. rewrite unprintable_spec. unfold is_dec in D. intros (a & b & I & L). unfold forbidden_ranges in I. cbn [In] in I. repeat (destruct I as [I|I]; [injection I as <- <-; lia|]). destruct I.
Qed.

(** ** The grammar *)
Definition digits_set : N := Eval vm_compute in fold_left (fun b c => N.setbit b c) (s "0123456789") 0%N.
Lemma digits_set_ok c : N.testbit digits_set c = true -> is_dec c.
Proof.
  intro H. destruct (N.lt_ge_cases c 64) as [L|L].
  - unfold is_dec. assert (X : forallb (fun c => implb (N.testbit digits_set (N.of_nat c)) ((48 <=? N.of_nat c) && (N.of_nat c <=? 57))%N) (seq 0 64) = true) by (vm_compute; reflexivity).
    rewrite forallb_forall in X. specialize (X (N.to_nat c)). rewrite N2Nat.id, H in X. assert (I : In (N.to_nat c) (seq 0 64)) by (apply in_seq; lia). specialize (X I). cbn [implb] in X. lia.
  - exfalso. rewrite N.bits_above_log2 in H; [discriminate H|]. assert (X : (N.log2 digits_set < 64)%N) by (vm_compute; reflexivity). lia.
Qed.
(** Warn codes are of digits, and there are none outside [Warning]; no header has status codes. *)
Definition numbers (codes : bool) (cls : str) : option N :=
  if str_eqb cls (s "WarnCode") then Some (if codes then digits_set else 0%N) else if is_number cls then Some 0%N else None.
Definition is_warning (name : str) : bool := str_eqb name (s "Warning").
Definition entry_fine (i : header_info) : bool :=
  match hk_syntax i with
  | Some x => sane rec_names (as_nonterminal x) && forallb (symbol_fine is_known_class (numbers (is_warning (hk_key i))) rec_rules) (reachable rec_rules rec_names (as_nonterminal x))
  | None => true
  end.
Lemma headers_fine : forallb entry_fine header_table = true.
Proof. vm_compute. reflexivity. Qed.

Lemma known_same : of_known_class = Verbatim.annotated is_known_class.
Proof. reflexivity. Qed.

(** The nested calls make no such objects. *)
Lemma authority_types : infer any_ty rec_ty alt_authority_inner = [TStr 95704415592526979515667300817441914880 1 None].
Proof. vm_compute. reflexivity. Qed.
Lemma nested_unmarked nst again : parses nst again -> nested_safe is_known_class (nested again).
Proof.
  intros P p args. assert (T : typed_reader any_ty again) by (apply (parses_typed (nst := nst)); [apply any_ok|exact P]).
  destruct p; try (intro H; discriminate H).
  - destruct args as [|[x| | | | | | | | | | |] [|]]; try (intro H; discriminate H). cbn [nested]. unfold check_alt_authority.
    pose proof (parse_again_ok T alt_authority_inner x 1257 [(s "authority", VStr x)]) as H. rewrite authority_types in H. destruct H as [H|[H|[]]].
    + destruct H as (v & ->). intro H. discriminate H.
    + destruct H as (y & -> & _). intro H. discriminate H.
  - destruct args as [|[| | | | | | |l| | | |] [|]]; try (intro H; discriminate H). cbn [nested]. destruct (process_params again [] None l) as [[r cs]|]; intro H; discriminate H.
Qed.

(** ** What is shown *)
Lemma pieces_shown codes (chunks : list (chunk val)) : forall slices, List.length slices = List.length chunks -> Forall (verbatim (numbers codes)) (combine chunks slices) ->
  shown_as (codes = true) (List.concat slices) (value_shown chunks) /\
  ((forall t, ~ In (Obj (VObj (s "WarnCode") [VStr (48%N :: t)])) chunks) -> value_shown chunks = printable (List.concat slices)).
Proof.
  induction chunks as [|c chunks IH]; intros [|sl slices] L F; try discriminate L; [split; [constructor|reflexivity]|]. injection L as L. cbn [combine] in F. inversion F as [|? ? V F']; subst.
  destruct (IH slices L F') as [A B]. cbn [List.concat]. change (value_shown (c :: chunks)) with (piece_shown c ++ value_shown chunks).
  assert (Plain : piece_shown c = printable sl ->
    shown_as (codes = true) (sl ++ List.concat slices) (piece_shown c ++ value_shown chunks) /\
    ((forall t, ~ In (Obj (VObj (s "WarnCode") [VStr (48%N :: t)])) (c :: chunks)) -> piece_shown c ++ value_shown chunks = printable (sl ++ List.concat slices))).
  { intros ->. split; [now constructor|]. intros H1. rewrite printable_app, B; [reflexivity|]. intros t I. apply (H1 t). now right. }
  destruct c as [b|o]; [cbn in V; subst b; now apply Plain|]. destruct V as [NE (cls & Eo & Al)]. cbn [snd] in *. subst o. cbn [piece_shown known_str] in *. unfold numbers in Al.
  assert (Empty : all_in 0 sl -> False). { intro Z. destruct sl as [|c sl]; [now elim NE|]. specialize (Z c (or_introl eq_refl)). rewrite N.bits_0 in Z. discriminate Z. }
  unfold is_number in *. destruct (str_eqb cls (s "WarnCode")) eqn:Wc.
  - specialize (Al _ eq_refl). destruct codes; [|now elim (Empty Al)]. cbn [orb] in *.
    assert (Fd : Forall is_dec sl) by (apply Forall_forall; intros c I; apply digits_set_ok, Al, I).
    destruct (leading_zeros NE Fd) as (k & t & E & Nt & Ft & V & Z). rewrite V in *. rewrite (printable_digits Ft) in *. split.
    + rewrite E, <- app_assoc. now apply shown_code.
    + intros H1. rewrite printable_app, B; [|intros t' I; apply (H1 t'); now right]. f_equal.
      assert (K : k = 0). { apply Z. intro H. destruct sl as [|c0 sl]; [now elim NE|]. cbn [hd] in H. subst c0. apply str_eqb_eq in Wc. subst cls. apply (H1 sl). now left. }
      subst k. cbn [repeat app] in E. subst sl. symmetry. now apply printable_digits.
  - cbn [orb] in *. destruct (str_eqb cls (s "StatusCode")); [elim (Empty (Al _ eq_refl))|now apply Plain].
Qed.

Lemma header_in name x : syntax_for name = Some x -> exists i, In i header_table /\ hk_syntax i = Some x /\ lower (hk_key i) = lower name.
Proof.
  unfold syntax_for, header_of. generalize header_table as l. induction l as [|i l IH]; [discriminate|]. cbn [find_header]. destruct (ci_eq (hk_key i) name) eqn:E.
  - intro H. exists i. split; [now left|]. split; [exact H|]. now apply ci_eq_lower.
  - intro H. destruct (IH H) as (j & I & Q). exists j. split; [now right|exact Q].
Qed.

Lemma warning_key : forallb (fun i => Bool.eqb (is_warning (hk_key i)) (str_eqb (lower (hk_key i)) (s "warning"))) header_table = true.
Proof. vm_compute. reflexivity. Qed.
(** The pieces of a value that was read. *)
Lemma spliced read name x w r : annotates read -> syntax_for name = Some x -> read x w = Some r ->
  exists slices, let chunks := splice w (pr_annotations r) in
    List.length slices = List.length chunks /\ Forall (verbatim (numbers (str_eqb (lower name) (s "warning")))) (combine chunks slices) /\ List.concat slices = w.
Proof.
  intros (nst & again & P & R) Sx Rx. apply R in Rx. apply C02_result_is_meaning in Rx; [|apply rep_ok_all]. destruct Rx as [t [T [Y ->]]].
  destruct (header_in Sx) as (i & Ii & Xi & Li). pose proof (proj1 (forallb_forall _ _) headers_fine i Ii) as Fi. unfold entry_fine in Fi. rewrite Xi in Fi. apply andb_true_iff in Fi. destruct Fi as [Sa Fi].
  assert (Wn : is_warning (hk_key i) = str_eqb (lower name) (s "warning")).
  { rewrite <- Li. apply Bool.eqb_prop. exact (proj1 (forallb_forall (fun i => Bool.eqb (is_warning (hk_key i)) (str_eqb (lower (hk_key i)) (s "warning"))) _) warning_key i Ii). }
  rewrite Wn in Fi. rewrite <- Y.
  apply (@splice_verbatim is_known_class (numbers (str_eqb (lower name) (s "warning"))) (nested again) (nested_unmarked P) eq_refl rec_rules
    (reachable rec_rules rec_names (as_nonterminal x)) (reachable_closed http_rec_known (sane_recs Sa)) Fi t (as_nonterminal x) T).
  unfold reachable. apply in_or_app. left. apply below_self.
Qed.

(** Whatever the entry, and whether or not a check has read it: the text that the report
    shows for it is the text that was sent, with characters that cannot be shown
    replaced.  In [Warning], zeros before warn codes may be missing. *)
Theorem C72_value_shown : forall read parsed name p e, annotates read ->
  shown_as (lower name = s "warning") (e_value e) (value_shown (annotated_value read parsed name p e)).
Proof.
  intros read parsed name p e An. assert (Whole : shown_as (lower name = s "warning") (e_value e) (value_shown [Bytes (e_value e)])).
  { unfold value_shown. cbn [flat_map piece_shown]. rewrite <- (app_nil_r (e_value e)) at 1. constructor. constructor. }
  unfold annotated_value. destruct (negb parsed || _); [exact Whole|]. destruct (syntax_for name) as [x|] eqn:Sx; [|exact Whole].
  destruct (read x (e_value e)) as [r|] eqn:R; [|exact Whole]. destruct (is_unavailable (pr_node r)); [exact Whole|].
  destruct (spliced An Sx R) as (slices & L & F & E). destruct (pieces_shown L F) as [A _]. rewrite E in A.
  assert (Mono : forall (P Q : Prop) w x, (P -> Q) -> shown_as P w x -> shown_as Q w x) by (intros P Q w y PQ H; induction H; constructor; auto).
  apply (Mono _ _ _ _ (fun H => proj1 (str_eqb_eq _ _) H) A).
Qed.
Print Assumptions C72_value_shown.

(** So headers other than [Warning] are shown as they were sent... *)
Theorem C72_shown_as_sent : forall read parsed name p e, annotates read -> lower name <> s "warning" ->
  value_shown (annotated_value read parsed name p e) = printable (e_value e).
Proof. intros read parsed name p e An N. exact (shown_plain (C72_value_shown parsed name p e An) N). Qed.
Print Assumptions C72_shown_as_sent.

(** ... and so is [Warning] unless it has a warn code that begins with a zero. *)
Theorem C72_warning_shown_as_sent : forall read parsed name p e, annotates read ->
  (forall t, ~ In (Obj (VObj (s "WarnCode") [VStr (48%N :: t)])) (annotated_value read parsed name p e)) ->
  value_shown (annotated_value read parsed name p e) = printable (e_value e).
Proof.
  intros read parsed name p e An H. assert (Whole : value_shown [Bytes (e_value e)] = printable (e_value e)) by apply app_nil_r.
  unfold annotated_value in *. destruct (negb parsed || _); [exact Whole|]. destruct (syntax_for name) as [x|] eqn:Sx; [|exact Whole].
  destruct (read x (e_value e)) as [r|] eqn:R; [|exact Whole]. destruct (is_unavailable (pr_node r)); [exact Whole|].
  destruct (spliced An Sx R) as (slices & L & F & E). destruct (pieces_shown L F) as [_ B]. rewrite E in B. exact (B H).
Qed.
Print Assumptions C72_warning_shown_as_sent.

(** Each object in the value has the text that stands where it is. *)
Theorem C72_objects : forall read parsed name p e, annotates read ->
  exists slices, List.length slices = List.length (annotated_value read parsed name p e) /\ List.concat slices = e_value e /\
    forall k, match nth_error (annotated_value read parsed name p e) k with
              | Some (Bytes b) => nth_error slices k = Some b
              | Some (Obj o) => exists cls t, o = VObj cls [VStr t] /\ t <> [] /\ nth_error slices k = Some t
              | None => True
              end.
Proof.
  intros read parsed name p e An.
  assert (Whole : exists slices, List.length slices = List.length [@Bytes val (e_value e)] /\ List.concat slices = e_value e /\
    forall k, match nth_error [@Bytes val (e_value e)] k with
              | Some (Bytes b) => nth_error slices k = Some b
              | Some (Obj o) => exists cls t, o = VObj cls [VStr t] /\ t <> [] /\ nth_error slices k = Some t
              | None => True
              end).
  { exists [e_value e]. split; [reflexivity|]. split; [apply app_nil_r|]. intros [|[|k]]; cbn; auto. }
  unfold annotated_value. destruct (negb parsed || _); [exact Whole|]. destruct (syntax_for name) as [x|] eqn:Sx; [|exact Whole].
  destruct (read x (e_value e)) as [r|] eqn:R; [|exact Whole]. destruct (is_unavailable (pr_node r)); [exact Whole|].
  destruct (spliced An Sx R) as (slices & L & F & E). exists slices. split; [exact L|]. split; [exact E|]. clear - L F. revert slices L F.
  generalize (splice (e_value e) (pr_annotations r)) as chunks. induction chunks as [|c chunks IH]; intros [|sl slices] L F k; try discriminate L; [destruct k; exact Logic.I|].
  injection L as L. cbn [combine] in F. inversion F as [|? ? V F']; subst. destruct k as [|k]; [|exact (IH slices L F' k)]. cbn [nth_error]. destruct c as [b|o]; cbn in V; [now subst b|].
  destruct V as [NE (cls & -> & _)]. exists cls, sl. auto.
Qed.
Print Assumptions C72_objects.

(** ** Examples *)
Definition run_annotated (n : nat) (x : symbol) (w : str) : option (@presult val vcomplaint) :=
  match @inner_parse HG (@presult val vcomplaint) p_leaf (@p_act rec_rules (pyfun (nested (run_parser n (fun _ _ => (VBad, []))))) of_known_class) p_rep n w (as_nonterminal x) with
  | Done (Accepted r) => Some r
  | _ => None
  end.
Lemma run_annotates n : annotates (run_annotated n).
Proof.
  eexists _, _. split; [apply run_parses|]. intros x w r E. unfold run_annotated in E. match type of E with match ?q with _ => _ end = _ => destruct q as [[r'|e]| |] eqn:Q end; try discriminate E.
  injection E as <-. exists n. exact Q.
Qed.
(** A media type is shown as an object, its parameter as text. *)
Example C72_example :
  annotates (run_annotated 3000) /\
  annotated_value (run_annotated 3000) true (s "Content-Type") (false, 0) (Entry (s "Content-Type") (s "Text/HTML; q=1")) = [Obj (VObj (s "MediaType") [VStr (s "Text/HTML")]); Bytes (s "; q=1")] /\
  value_shown (annotated_value (run_annotated 3000) true (s "Content-Type") (false, 0) (Entry (s "Content-Type") (s "Text/HTML; q=1"))) = s "Text/HTML; q=1".
Proof. split; [apply run_annotates|]. split; vm_compute; reflexivity. Qed.
(** Without that exception the claim is false: a warn code is shown without the zeros that
    it begins with. *)
Theorem C72_shown_as_sent_refuted : exists read e, annotates read /\ value_shown (annotated_value read true (s "Warning") (false, 0) e) <> printable (e_value e).
Proof.
  exists (run_annotated 3000), (Entry (s "Warning") (s "099 - ""x""")). split; [apply run_annotates|]. vm_compute. discriminate.
Qed.
Print Assumptions C72_shown_as_sent_refuted.
