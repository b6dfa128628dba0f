(** What [comma_list] and [comma_list1] mean. *)
From Coq Require Import ZifyBool ZifyNat ZifyN Permutation String.
From Verif Require Import Base Earley EarleySpec Parse Grammar GrammarSem GrammarLang GrammarWF GrammarVals GrammarExcl GrammarCalc
  Syntax Actions Reading HttpText SyntaxVals.
Open Scope nat_scope.
Open Scope list_scope.
Unset Strict Implicit.

Section Lists.
Variable nested : pyf -> list val -> val * list vcomplaint.
Notation pf := (pyfun nested).
Notation textual := (textual rec_rules pf).
Notation M := (M rec_rules pf).
Notation V := (V rec_rules pf).
Notation A := (A rec_rules pf).

Lemma A_skip' x w ns cs : A (skip x) w ns cs <-> (exists n, V x w n cs) /\ ns = [].
Proof.
  destruct (eph1 (skip x)) eqn:E.
  - rewrite (@A_eph rec_rules pf _ E). apply V_skip.
  - rewrite (@A_node rec_rules pf _ E). split.
    + intros [v [H ->]]. apply M_V in H. destruct H as [n [H ->]]. apply V_skip in H. destruct H as [H ->]. auto.
    + intros [H ->]. exists VSkip. split; [|reflexivity]. apply M_V. exists []. split; [|reflexivity]. apply V_skip. auto.
Qed.

Lemma V_seq_text x y K L : textual x K -> textual y L -> forall w,
  (exists n, V (seq2 x y) w n []) <-> cat K L w.
Proof.
  intros T U w. split.
  - intros [n H]. apply V_seq in H. destruct H as [w1 [w2 [n1 [n2 [c1 [c2 [-> [-> [P [H1 H2]]]]]]]]]].
    apply (A_text T) in H1. apply (A_text U) in H2. exists w1, w2. tauto.
  - intros [w1 [w2 [-> [H1 H2]]]]. exists ([VStr w1] ++ [VStr w2]). apply V_seq. exists w1, w2, [VStr w1], [VStr w2], [], [].
    repeat split; auto; [apply (A_text T)|apply (A_text U)]; auto.
Qed.
Lemma V_seq_text' x y K L : textual x K -> textual y L -> forall w ns cs, V (seq2 x y) w ns cs -> cs = [].
Proof.
  intros T U w ns cs H. apply V_seq in H. destruct H as [w1 [w2 [n1 [n2 [c1 [c2 [-> [-> [P [H1 H2]]]]]]]]]].
  apply (A_text T) in H1. apply (A_text U) in H2. destruct H1 as [_ [_ ->]], H2 as [_ [_ ->]]. now apply Permutation_nil in P.
Qed.
Lemma A_skip_seq x y K L : textual x K -> textual y L -> forall w ns cs,
  A (skip (seq2 x y)) w ns cs <-> cat K L w /\ ns = [] /\ cs = [].
Proof.
  intros T U w ns cs. rewrite A_skip'. split.
  - intros [[n H] ->]. pose proof (V_seq_text' T U H). subst cs. split; [|auto]. apply (V_seq_text T U). eauto.
  - intros [H [-> ->]]. split; [|reflexivity]. now apply (V_seq_text T U).
Qed.

Lemma comma_textual : textual (literal (s ",")) (fun w => w = [44%N]).
Proof. exact (@lit_textual nested "," eq_refl). Qed.

Variable e : symbol.
(** No element is skipped or worth [None]. *)
Hypothesis visible : forall w v cs, M e w v cs -> v <> VSkip /\ v <> VNone.

Notation vpart := (@part val vcomplaint).
(** The value a part has in the grammar. *)
Definition part_val (p : vpart) : val := match p_element p with Some (_, v, _) => v | None => VNone end.
Definition part_cs (p : vpart) : list vcomplaint := match p_element p with Some (_, _, cs) => cs | None => [] end.

(** ** [comma_list] *)
Definition item := maybe_ (seq2 (group e) (skip OWS)).

Lemma item_M w v cs : M item w v cs <-> exists p, part_ok (M e) p /\ p_before p = [] /\ w = part_text p /\ v = part_val p /\ cs = part_cs p.
Proof.
  rewrite M_V. unfold item, maybe_. split.
  - intros [ns [H ->]]. apply V_maybe in H. destruct H as [H|[-> [-> ->]]].
    + apply V_seq in H. destruct H as [w1 [w2 [n1 [n2 [c1 [c2 [-> [-> [P [H1 H2]]]]]]]]]].
      apply A_group in H1. destruct H1 as [v [H1 ->]]. apply (A_skip (@OWS_textual nested)) in H2. destruct H2 as [H2 [-> ->]].
      rewrite app_nil_r in P. pose proof (M_perm H1 P) as H1'. destruct (visible H1') as [NS _].
      exists (Part [] (Some (w1, v, cs)) w2). repeat split; auto. { constructor. }
      destruct v; try congruence; reflexivity.
    + exists (Part [] None []). repeat split; constructor.
  - intros [[b [[[w1 v1] c1]|] a] [[O1 [O2 O3]] [E [-> [-> ->]]]]]; cbn [p_before p_element p_after] in *; subst b; unfold part_text; cbn [p_before p_element p_after app].
    + destruct (visible O3) as [NS _]. exists [v1]. rewrite collapse_one. split; [|reflexivity]. apply V_maybe. left. apply V_seq.
      exists w1, a, [v1], [], c1, []. split; [reflexivity|]. split; [reflexivity|]. split; [now rewrite app_nil_r|]. split.
      * apply A_group. exists v1. split; [exact O3|]. destruct v1; try congruence; reflexivity.
      * apply (A_skip (@OWS_textual nested)). auto.
    + subst a. exists [VNone]. split; [|reflexivity]. apply V_maybe. auto.
Qed.

Definition tail_item := seq2 (skip (seq2 (literal (s ",")) OWS)) item.

Lemma item_visible w v cs : M item w v cs -> v <> VSkip.
Proof.
  intro H. apply item_M in H. destruct H as [[b [[[w1 v1] c1]|] a] [[_ [_ O]] [_ [_ [-> _]]]]]; cbn in *; [|discriminate].
  now apply visible in O.
Qed.

Lemma tail_item_M w v cs : M tail_item w v cs <->
  exists p, part_ok (M e) p /\ w = 44%N :: part_text p /\ v = part_val p /\ cs = part_cs p.
Proof.
  rewrite M_V. unfold tail_item. split.
  - intros [ns [H ->]]. apply V_seq in H. destruct H as [w1 [w2 [n1 [n2 [c1 [c2 [-> [-> [P [H1 H2]]]]]]]]]].
    apply (A_skip_seq comma_textual (@OWS_textual nested)) in H1. destruct H1 as [[u1 [u2 [-> [-> O]]]] [-> ->]].
    apply A_node in H2; [|reflexivity]. destruct H2 as [v [H2 ->]]. pose proof (M_perm H2 P) as H2'. cbn [app] in *.
    apply item_M in H2'. destruct H2' as [[b x a] [[O1 [O2 O3]] [E [-> [-> ->]]]]]. cbn [p_before p_element p_after] in *. subst b.
    pose proof (item_visible H2) as NS. exists (Part u2 x a). repeat split; auto.
    change (part_val (Part u2 x a)) with (part_val (Part [] x a)). destruct (part_val (Part [] x a)); congruence || reflexivity.
  - intros [[b x a] [[O1 [O2 O3]] [-> [-> ->]]]]. exists (unskip (part_val (Part b x a))).
    assert (NS : part_val (Part b x a) <> VSkip).
    { destruct x as [[[? ?] ?]|]; cbn in *; [|discriminate]. now apply visible in O3. }
    split.
    + apply V_seq. exists (44%N :: b), (part_text (Part [] x a)), [], (unskip (part_val (Part b x a))), [], (part_cs (Part b x a)).
      split; [reflexivity|]. split; [reflexivity|]. split; [apply Permutation_refl|]. split.
      * apply (A_skip_seq comma_textual (@OWS_textual nested)). split; [|auto]. exists [44%N], b. auto.
      * apply A_node; [reflexivity|]. exists (part_val (Part b x a)). split; [|reflexivity]. apply item_M.
        exists (Part [] x a). repeat split; auto. constructor.
    + destruct (part_val (Part b x a)); try congruence; reflexivity.
Qed.

Lemma tails w vs cs : pieces (M tail_item) w vs cs <->
  exists ps, Forall (part_ok (M e)) ps /\ w = flat_map (fun p => 44%N :: part_text p) ps /\ vs = map part_val ps /\ cs = flat_map part_cs ps.
Proof.
  split.
  - induction 1 as [|w ws v vs cs css H _ [ps [F [-> [-> ->]]]]]; [exists []; auto|].
    apply tail_item_M in H. destruct H as [p [O [-> [-> ->]]]]. exists (p :: ps). auto.
  - intros [ps [F [-> [-> ->]]]]. induction F as [|p ps O F IH]; [constructor|]. cbn [flat_map map]. constructor; [|exact IH].
    apply tail_item_M. eauto.
Qed.

Lemma list_text_cons (p : vpart) ps : list_text (p :: ps) = part_text p ++ flat_map (fun p => 44%N :: part_text p) ps.
Proof.
  unfold list_text. revert p. induction ps as [|q ps IH]; intro p; [cbn; now rewrite app_nil_r|].
  cbn [map commas flat_map]. f_equal. cbn [app]. f_equal. apply IH.
Qed.

Lemma list_complaints_map ps : @list_complaints val vcomplaint ps = flat_map part_cs ps.
Proof. reflexivity. Qed.

Lemma not_none_parts ps : Forall (part_ok (M e)) ps -> not_none (map part_val ps) = list_values ps.
Proof.
  unfold list_values, not_none. induction 1 as [|[b [[[w v] cs]|] a] ps [_ [_ O]] F IH]; [reflexivity| |]; cbn [map filter part_val p_element flat_map] in *.
  - destruct (visible O) as [_ NN]. replace (is_none v) with false by (destruct v; congruence || reflexivity). cbn. now rewrite IH.
  - exact IH.
Qed.

(** Some part among several is empty. *)
Definition some_empty (ps : list vpart) : bool :=
  (1 <? List.length ps) && existsb (fun p => match p_element p with None => true | _ => false end) ps.
Definition list_notice (ps : list vpart) : list vcomplaint := if some_empty ps then [(1151%N, [])] else [].

Lemma values_length ps : List.length (@list_values val vcomplaint ps) <= List.length ps /\
  (List.length (list_values ps) = List.length ps <-> existsb (fun p : vpart => match p_element p with None => true | _ => false end) ps = false).
Proof.
  unfold list_values. induction ps as [|[b [[[w v] cs]|] a] ps [IH1 IH2]]; cbn [flat_map p_element List.length existsb app orb]; [split; [lia|tauto]| |].
  - split; [lia|]. rewrite <- IH2. lia.
  - split; [lia|]. split; [lia|discriminate].
Qed.

Lemma collect ps : Forall (part_ok (M e)) ps ->
  pf PCollectElements [VList (map part_val ps)] = (VList (list_values ps), list_notice ps).
Proof.
  intro F. cbn [pyfun]. rewrite (not_none_parts F), map_length. f_equal. unfold list_notice, some_empty.
  destruct (values_length ps) as [L1 L2]. rewrite (andb_comm (negb _)).
  destruct (1 <? List.length ps) eqn:E1; cbn [andb]; [|reflexivity].
  destruct (existsb _ ps) eqn:E2; destruct (Nat.eqb_spec (List.length (list_values ps)) (List.length ps)) as [E3|E3]; cbn [negb]; try reflexivity.
  - apply L2 in E3. discriminate E3.
  - exfalso. apply E3. now apply L2.
Qed.

Definition comma_list_spec (w : str) (v : val) (cs : list vcomplaint) : Prop :=
  exists ps, ps <> [] /\ Forall (part_ok (M e)) ps /\ trimmed_left ps /\
    w = list_text ps /\ v = VList (list_values ps) /\ cs = list_complaints ps ++ list_notice ps.

Lemma comma_list_M w v cs : M (comma_list e) w v cs <-> exists cs', comma_list_spec w v cs' /\ Permutation cs' cs.
Proof.
  unfold comma_list. rewrite M_seal, M_V. fold item. fold tail_item. unfold modl. split.
  - intros [ns [H ->]]. apply V_wrap in H. destruct H as [n [c [v [c' [H [E [-> P]]]]]]].
    apply V_wrap in H. destruct H as [n0 [c0 [v0 [c0' [H [E0 [-> P0]]]]]]].
    apply V_seq in H. destruct H as [w1 [w2 [n1 [n2 [c1 [c2 [-> [-> [Q [H1 H2]]]]]]]]]].
    apply A_node in H1; [|reflexivity]. destruct H1 as [v1 [H1 ->]]. pose proof (item_visible H1) as NS.
    apply item_M in H1. destruct H1 as [p [O [B [-> [-> ->]]]]].
    apply A_many in H2. destruct H2 as [vs [cs2 [H2 [-> Q2]]]]. apply tails in H2. destruct H2 as [ps [F [-> [-> ->]]]].
    replace (unskip (part_val p)) with [part_val p] in E0 by (destruct (part_val p); congruence || reflexivity).
    cbn in E0. injection E0 as <- <-. cbn [unskip is_vskip] in E.
    change (VList (part_val p :: map part_val ps)) with (VList (map part_val (p :: ps))) in E.
    cbn [call_func] in E. rewrite collect in E by (constructor; auto). injection E as <- <-.
    exists (list_complaints (p :: ps) ++ list_notice (p :: ps)). split.
    + exists (p :: ps). rewrite list_text_cons. split; [discriminate|]. split; [now constructor|]. repeat split; auto.
    + rewrite app_nil_r in P0. rewrite <- P. apply Permutation_app_tail. rewrite <- P0, <- Q.
      change (list_complaints (p :: ps)) with (part_cs p ++ flat_map part_cs ps). now rewrite Q2.
  - intros [cs' [[ps [N [F [TL [-> [-> ->]]]]]] P]]. destruct ps as [|p ps]; [congruence|]. inversion F as [|? ? O F']; subst.
    exists [VList (list_values (p :: ps))]. split; [|reflexivity]. apply V_wrap.
    exists [VList (map part_val (p :: ps))], (list_complaints (p :: ps)), (VList (list_values (p :: ps))), (list_notice (p :: ps)).
    split; [|split; [cbn [call_func]; apply collect; exact F|split; [reflexivity|exact P]]].
    assert (M1 : M item (part_text p) (part_val p) (part_cs p)). { apply item_M. exists p. auto. }
    apply V_wrap. exists [part_val p; VList (map part_val ps)], (list_complaints (p :: ps)), (VList (map part_val (p :: ps))), [].
    split; [|split; [reflexivity|split; [reflexivity|now rewrite app_nil_r]]].
    apply V_seq. exists (part_text p), (flat_map (fun p => 44%N :: part_text p) ps), [part_val p], [VList (map part_val ps)], (part_cs p), (flat_map part_cs ps).
    split; [apply list_text_cons|]. split; [reflexivity|]. split; [apply Permutation_refl|]. split.
    + apply A_node; [reflexivity|]. exists (part_val p). split; [exact M1|]. pose proof (item_visible M1).
      destruct (part_val p); congruence || reflexivity.
    + apply A_many. exists (map part_val ps), (flat_map part_cs ps). split; [|auto]. apply tails. eauto.
Qed.

(** ** [comma_list1] *)

Definition lead1 := wrap (FSubst VNone) (seq2 (lit ",") OWS).
Definition tail1 := seq2 (skip (seq2 OWS (lit ","))) (maybe_ (seq2 (skip OWS) e)).

Lemma lead1_M w v cs : M lead1 w v cs <-> exists b, ows b /\ w = 44%N :: b /\ v = VNone /\ cs = [].
Proof.
  rewrite M_V. unfold lead1. split.
  - intros [ns [H ->]]. apply V_subst in H. destruct H as [[n H] ->]. pose proof (V_seq_text' comma_textual (@OWS_textual nested) H). subst cs.
    assert (X : cat (fun w => w = [44%N]) ows w). { apply (V_seq_text comma_textual (@OWS_textual nested)). exists n. exact H. }
    destruct X as [u1 [u2 [-> [-> O]]]]. exists u2. auto.
  - intros [b [O [-> [-> ->]]]]. exists [VNone]. split; [|reflexivity]. apply V_subst. split; [|reflexivity].
    apply (V_seq_text comma_textual (@OWS_textual nested)). exists [44%N], b. auto.
Qed.

(** [before] are the blanks in front of the comma. *)
Lemma tail1_M w v cs : M tail1 w v cs <-> exists before p, ows before /\ part_ok (M e) p /\ p_after p = [] /\
  (p_element p = None -> p_before p = []) /\ w = before ++ 44%N :: part_text p /\ v = part_val p /\ Permutation (part_cs p) cs.
Proof.
  rewrite M_V. unfold tail1. split.
  - intros [ns [H ->]]. apply V_seq in H. destruct H as [w1 [w2 [n1 [n2 [c1 [c2 [-> [-> [P [H1 H2]]]]]]]]]].
    apply (A_skip_seq (@OWS_textual nested) comma_textual) in H1. destruct H1 as [[u1 [u2 [-> [O ->]]]] [-> ->]].
    apply A_node in H2; [|unfold maybe_, maybe, alt; reflexivity]. destruct H2 as [v [H2 ->]]. cbn [app] in *.
    apply M_V in H2. destruct H2 as [n [H2 ->]]. unfold maybe_ in H2. apply V_maybe in H2. destruct H2 as [H2|[-> [-> ->]]].
    + apply V_seq in H2. destruct H2 as [w3 [w4 [n3 [n4 [c3 [c4 [-> [-> [P' [H3 H4]]]]]]]]]].
      apply (A_skip (@OWS_textual nested)) in H3. destruct H3 as [H3 [-> ->]]. cbn [app] in *.
      assert (M4 : M e w4 (collapse n4) c4).
      { destruct (eph1 e) eqn:E.
        - apply M_V. exists n4. split; [now apply A_eph in H4|reflexivity].
        - apply A_node in H4; [|exact E]. destruct H4 as [v4 [H4 ->]]. destruct (visible H4) as [NS _].
          replace (collapse (unskip v4)) with v4 by (destruct v4; congruence || reflexivity). exact H4. }
      destruct (visible M4) as [NS _].
      exists u1, (Part w3 (Some (w4, collapse n4, c4)) []). unfold part_text. cbn [p_before p_element p_after part_val part_cs]. rewrite app_nil_r, <- app_assoc. repeat split; auto; try discriminate.
      * constructor.
      * destruct (collapse n4); congruence || reflexivity.
      * now rewrite P'.
    + exists u1, (Part [] None []). unfold part_text. cbn [p_before p_element p_after part_val part_cs app]. rewrite <- app_assoc. repeat split; auto; try constructor.
  - intros [b [[b' x a] [O [[O1 [O2 O3]] [E [E' [-> [-> P]]]]]]]]. cbn [p_before p_element p_after] in *. subst a.
    assert (X : exists v, v <> VSkip /\ M (maybe_ (seq2 (skip OWS) e)) (part_text (Part b' x [])) v cs /\ v = part_val (Part b' x [])).
    { destruct x as [[[w1 v1] c1]|]; unfold part_text; cbn [p_before p_element p_after part_val part_cs] in *.
      - destruct (visible O3) as [NS _]. exists v1. split; [exact NS|]. split; [|reflexivity]. rewrite app_nil_r.
        pose proof (M_perm O3 P) as M1. destruct (eph1 e) eqn:Ee.
        + apply M_V in M1. destruct M1 as [n [M1 ->]]. apply M_V. exists n. split; [|reflexivity]. apply V_maybe. left. apply V_seq.
          exists b', w1, [], n, [], cs. split; [reflexivity|]. split; [reflexivity|]. split; [apply Permutation_refl|]. split; [|now apply A_eph].
          apply (A_skip (@OWS_textual nested)). auto.
        + apply M_V. exists [v1]. split; [|now rewrite collapse_one]. apply V_maybe. left. apply V_seq.
          exists b', w1, [], [v1], [], cs. split; [reflexivity|]. split; [reflexivity|]. split; [apply Permutation_refl|]. split.
          * apply (A_skip (@OWS_textual nested)). auto.
          * apply A_node; [exact Ee|]. exists v1. split; [exact M1|]. destruct v1; congruence || reflexivity.
      - exists VNone. split; [discriminate|]. split; [|reflexivity]. rewrite (E' eq_refl). apply Permutation_nil in P. subst cs.
        apply M_V. exists [VNone]. split; [|reflexivity]. apply V_maybe. auto. }
    destruct X as [v [NS [MV ->]]]. exists [part_val (Part b' x [])]. rewrite collapse_one. split; [|reflexivity].
    apply V_seq. exists (b ++ [44%N]), (part_text (Part b' x [])), [], [part_val (Part b' x [])], [], cs. rewrite <- app_assoc.
    split; [reflexivity|]. split; [reflexivity|]. split; [apply Permutation_refl|]. split.
    + apply (A_skip_seq (@OWS_textual nested) comma_textual). split; [|auto]. exists b, [44%N]. auto.
    + apply A_node; [unfold maybe_, maybe, alt; reflexivity|]. eexists. split; [exact MV|]. destruct (part_val (Part b' x [])); congruence || reflexivity.
Qed.

(** The blanks in front of a comma belong to the part that ends there. *)
Definition add_after (p : vpart) (b : str) : vpart :=
  match p_element p with
  | Some x => Part (p_before p) (Some x) b
  | None => Part b None []
  end.

Lemma part_text_after p b : p_after p = [] -> (p_element p = None -> p_before p = []) -> part_text (add_after p b) = part_text p ++ b.
Proof.
  destruct p as [b0 [[[w v] c]|] a]; unfold part_text; cbn [p_before p_element p_after add_after]; intros -> E.
  - cbn [add_after p_element p_before p_after]. now rewrite <- !app_assoc.
  - rewrite (E eq_refl). cbn. now rewrite app_nil_r.
Qed.

(** Sealed: nothing follows on the right. *)
Definition sealed (p : vpart) : Prop := p_after p = [] /\ (p_element p = None -> p_before p = []).

Lemma tails1_to w vs cs : pieces (M tail1) w vs cs -> forall p, part_ok (M e) p -> sealed p ->
  exists b ps, ows b /\ Forall (part_ok (M e)) ps /\ part_text p ++ w = list_text (add_after p b :: ps) /\
    vs = map part_val ps /\ Permutation (flat_map part_cs ps) cs /\ trimmed_right (add_after p b :: ps).
Proof.
  induction 1 as [|w ws v vs cs css H _ IH]; intros p O [S1 S2].
  - exists [], []. split; [constructor|]. split; [constructor|]. split.
    + unfold list_text. cbn [map commas]. now rewrite part_text_after.
    + split; [reflexivity|]. split; [constructor|]. unfold trimmed_right. cbn. unfold add_after. destruct (p_element p); reflexivity.
  - apply tail1_M in H. destruct H as [b [q [Ob [Oq [Q1 [Q2 [-> [-> Pq]]]]]]]].
    destruct (IH q Oq (conj Q1 Q2)) as [b' [ps [Ob' [F [E [-> [P TR]]]]]]].
    exists b, (add_after q b' :: ps). split; [exact Ob|]. split; [|split; [|split; [|split]]].
    + constructor; [|exact F]. destruct q as [b0 [[[w0 v0] c0]|] a]; unfold add_after, part_ok in *; cbn in *; [tauto|]. repeat split; auto; constructor.
    + rewrite list_text_cons. rewrite part_text_after by auto. rewrite list_text_cons in E. cbn [flat_map]. rewrite <- !app_assoc. cbn [app]. rewrite <- E. reflexivity.
    + cbn [map]. f_equal. unfold add_after, part_val. destruct (p_element q) as [[[? ?] ?]|] eqn:X; cbn; try rewrite X; reflexivity.
    + cbn [flat_map]. rewrite P. replace (part_cs (add_after q b')) with (part_cs q); [now rewrite Pq|].
      unfold add_after, part_cs. destruct (p_element q) as [[[? ?] ?]|] eqn:X; cbn; try rewrite X; reflexivity.
    + unfold trimmed_right in *. cbn [rev] in *. destruct (rev ps) as [|z l]; cbn [app] in *; exact TR.
Qed.

Definition strip_after (p : vpart) : vpart :=
  match p_element p with Some x => Part (p_before p) (Some x) [] | None => Part [] None [] end.
Definition after_of (p : vpart) : str := match p_element p with Some _ => p_after p | None => p_before p end.

Lemma strip_ok p : part_ok (M e) p -> part_ok (M e) (strip_after p) /\ sealed (strip_after p) /\ ows (after_of p) /\
  part_text p = part_text (strip_after p) ++ after_of p /\ part_val (strip_after p) = part_val p /\ part_cs (strip_after p) = part_cs p.
Proof.
  destruct p as [b [[[w v] c]|] a]; intros [O1 [O2 O3]]; unfold strip_after, after_of, part_ok, sealed, part_text, part_val, part_cs;
    cbn [p_before p_element p_after] in *.
  - repeat split; auto; try discriminate. { constructor. } now rewrite app_nil_r, <- app_assoc.
  - subst a. repeat split; auto; try constructor. cbn. now rewrite app_nil_r.
Qed.

Lemma tails1_of p ps : part_ok (M e) p -> Forall (part_ok (M e)) ps -> trimmed_right (p :: ps) ->
  exists w cs, list_text (p :: ps) = part_text (strip_after p) ++ w /\ pieces (M tail1) w (map part_val ps) cs /\
    Permutation (flat_map part_cs ps) cs.
Proof.
  revert p. induction ps as [|q ps IH]; intros p O F TR.
  - exists [], []. split; [|split; constructor]. unfold list_text. cbn [map commas]. rewrite app_nil_r.
    unfold trimmed_right in TR. cbn in TR. destruct O as [_ [_ O]].
    destruct p as [b [x|] a]; unfold strip_after, part_text; cbn [p_before p_element p_after] in *; now subst.
  - inversion F as [|? ? Oq F']; subst.
    assert (TR' : trimmed_right (q :: ps)).
    { unfold trimmed_right in *. cbn [rev] in *. destruct (rev ps) as [|z l]; cbn [app] in *; exact TR. }
    destruct (IH q Oq F' TR') as [w [cs [E [P Q]]]].
    destruct (strip_ok O) as [_ [_ [Oa [Et _]]]]. destruct (strip_ok Oq) as [Sq [[S1 S2] [_ [_ [Ev Ec]]]]].
    exists ((after_of p ++ 44%N :: part_text (strip_after q)) ++ w), (part_cs q ++ cs). split; [|split].
    + rewrite list_text_cons. rewrite Et, <- !app_assoc. f_equal. f_equal. cbn [flat_map app]. f_equal. rewrite <- E. now rewrite list_text_cons.
    + cbn [map]. constructor; [|exact P]. apply tail1_M. exists (after_of p), (strip_after q). repeat split; auto; [apply Sq|apply Sq|apply Sq|now rewrite Ec].
    + cbn [flat_map]. now rewrite Q.
Qed.

Lemma leads1 w vs cs : pieces (M lead1) w vs cs <->
  exists bs, Forall ows bs /\ w = flat_map (fun b => 44%N :: b) bs /\ vs = map (fun _ => VNone) bs /\ cs = [].
Proof.
  split.
  - induction 1 as [|w ws v vs cs css H _ [bs [F [-> [-> ->]]]]]; [exists []; auto|].
    apply lead1_M in H. destruct H as [b [O [-> [-> ->]]]]. exists (b :: bs). auto.
  - intros [bs [F [-> [-> ->]]]]. induction F as [|b bs O F IH]; [constructor|]. cbn [flat_map map].
    change (@nil vcomplaint) with (@nil vcomplaint ++ @nil vcomplaint). constructor; [|exact IH]. apply lead1_M. eauto.
Qed.

(** The blanks after a leading comma belong to the next part. *)
Definition with_before (b : str) (p : vpart) : vpart := Part b (p_element p) (p_after p).

Lemma with_before_text b p : p_before p = [] -> part_text (with_before b p) = b ++ part_text p.
Proof. destruct p as [b0 x a]. unfold part_text. cbn. now intros ->. Qed.
Lemma with_before_ok b p : ows b -> part_ok (M e) p -> part_ok (M e) (with_before b p).
Proof. destruct p as [b0 x a]. unfold part_ok. cbn. tauto. Qed.

Definition nonempty_part (p : vpart) : Prop := ~ empty_part p.

Lemma trimmed_right_first p p' ps : p_element p' = p_element p -> p_after p' = p_after p -> nonempty_part p \/ ps <> [] ->
  trimmed_right (p :: ps) <-> trimmed_right (p' :: ps).
Proof.
  intros E1 E2 N. unfold trimmed_right. cbn [rev]. destruct (rev ps) as [|z l] eqn:R; cbn [app]; [|reflexivity].
  rewrite E1. destruct (p_element p) eqn:X; [now rewrite E2|]. destruct N as [N|N]; [now destruct N|].
  destruct N. rewrite <- (rev_involutive ps), R. reflexivity.
Qed.
Lemma trimmed_right_cons (p q : vpart) ps : trimmed_right (p :: q :: ps) <-> trimmed_right (q :: ps).
Proof. unfold trimmed_right. cbn [rev]. destruct (rev ps) as [|z l]; cbn [app]; reflexivity. Qed.

Lemma lead_to bs : Forall ows bs -> forall p ps, Forall (part_ok (M e)) (p :: ps) -> p_before p = [] -> nonempty_part p ->
  trimmed_right (p :: ps) -> exists l, Forall (part_ok (M e)) l /\ trimmed_left l /\ trimmed_right l /\ Exists nonempty_part l /\
    list_text l = flat_map (fun b => 44%N :: b) bs ++ list_text (p :: ps) /\
    map part_val l = map (fun _ => VNone) bs ++ map part_val (p :: ps) /\ flat_map part_cs l = flat_map part_cs (p :: ps).
Proof.
  intros F p ps Fp B NE TR. induction F as [|b bs Ob F [l [L1 [L2 [L3 [L4 [L5 [L6 L7]]]]]]]].
  - exists (p :: ps). repeat split; auto.
  - destruct l as [|q l]; [inversion L4|]. inversion L1 as [|? ? Oq L1']; subst. cbn in L2.
    exists (Part [] None [] :: with_before b q :: l). split; [|split; [|split; [|split; [|split; [|split]]]]].
    + constructor; [repeat split; constructor|]. constructor; [now apply with_before_ok|exact L1'].
    + reflexivity.
    + apply trimmed_right_cons. eapply trimmed_right_first; [| | |exact L3]; try reflexivity.
      inversion L4 as [? ? N|? ? N]; subst; [left; exact N|right]. destruct l; [inversion N|discriminate].
    + apply Exists_cons_tl. inversion L4; subst; [now apply Exists_cons_hd|now apply Exists_cons_tl].
    + rewrite list_text_cons. cbn [flat_map app]. unfold part_text at 1. cbn [p_before p_element p_after app]. f_equal.
      rewrite with_before_text by exact L2. rewrite <- !app_assoc. f_equal. rewrite <- L5. now rewrite list_text_cons.
    + cbn [map app]. f_equal. exact L6.
    + exact L7.
Qed.

Lemma lead_of l : Forall (part_ok (M e)) l -> trimmed_left l -> trimmed_right l -> Exists nonempty_part l ->
  exists bs p ps, Forall ows bs /\ Forall (part_ok (M e)) (p :: ps) /\ p_before p = [] /\ nonempty_part p /\ trimmed_right (p :: ps) /\
    list_text l = flat_map (fun b => 44%N :: b) bs ++ list_text (p :: ps) /\
    map part_val l = map (fun _ => VNone) bs ++ map part_val (p :: ps) /\ flat_map part_cs l = flat_map part_cs (p :: ps).
Proof.
  remember (List.length l) as n eqn:En. revert l En. induction n as [|n IH]; intros l En L1 L2 L3 L4; destruct l as [|p l]; try discriminate En; [inversion L4|].
  inversion L1 as [|? ? O L1']; subst. cbn in L2. destruct (p_element p) as [x|] eqn:X.
  - exists [], p, l. repeat split; auto. unfold nonempty_part, empty_part. now rewrite X.
  - assert (Ex : Exists nonempty_part l). { inversion L4 as [? ? N|]; subst; [destruct N; exact X|assumption]. }
    destruct l as [|q l]; [inversion Ex|]. inversion L1' as [|? ? Oq L1'']; subst. injection En as En.
    destruct (IH (with_before [] q :: l)) as [bs [p' [ps [H1 [H2 [H3 [H4 [H5 [H6 [H7 H8]]]]]]]]]].
    + cbn. now f_equal.
    + constructor; [|exact L1'']. apply with_before_ok; [constructor|exact Oq].
    + reflexivity.
    + rewrite trimmed_right_cons in L3. eapply trimmed_right_first; [| | |exact L3]; try reflexivity.
      inversion Ex as [? ? N|? ? N]; subst; [left; exact N|right]. destruct l; [inversion N|discriminate].
    + inversion Ex; subst; [now apply Exists_cons_hd|now apply Exists_cons_tl].
    + exists (p_before q :: bs), p', ps. repeat split; auto.
      * constructor; [apply Oq|exact H1].
      * rewrite list_text_cons. destruct O as [_ [_ O]]. rewrite X in O. unfold part_text at 1. rewrite L2, X, O. cbn [app flat_map]. f_equal.
        rewrite <- app_assoc. rewrite <- H6. rewrite list_text_cons, app_assoc. f_equal.
      * cbn [map app]. unfold part_val at 1. rewrite X. f_equal. exact H7.
      * cbn [flat_map]. unfold part_cs at 1. rewrite X. exact H8.
Qed.

Definition comma_list1_spec (w : str) (v : val) (cs : list vcomplaint) : Prop :=
  exists ps, Exists nonempty_part ps /\ Forall (part_ok (M e)) ps /\ trimmed_left ps /\ trimmed_right ps /\
    w = list_text ps /\ v = VList (list_values ps) /\ cs = list_complaints ps ++ list_notice ps.

Lemma V_add_lists x y w ns cs :
  (forall w ns cs, A x w ns cs -> exists l, ns = [VList l]) -> (forall w ns cs, A y w ns cs -> exists l, ns = [VList l]) ->
  V (add x y) w ns cs <-> exists w1 w2 l1 l2 c1 c2, w = w1 ++ w2 /\ ns = [VList (l1 ++ l2)] /\ Permutation (c1 ++ c2) cs /\
    A x w1 [VList l1] c1 /\ A y w2 [VList l2] c2.
Proof.
  intros X Y. unfold add. rewrite V_wrap. split.
  - intros [n [c [v [c' [H [E [-> P]]]]]]]. apply V_seq in H. destruct H as [w1 [w2 [n1 [n2 [c1 [c2 [-> [-> [Q [H1 H2]]]]]]]]]].
    destruct (X _ _ _ H1) as [l1 ->]. destruct (Y _ _ _ H2) as [l2 ->]. cbn in E. injection E as <- <-. rewrite app_nil_r in P.
    exists w1, w2, l1, l2, c1, c2. repeat split; auto. now rewrite Q.
  - intros [w1 [w2 [l1 [l2 [c1 [c2 [-> [-> [Q [H1 H2]]]]]]]]]]. exists ([VList l1] ++ [VList l2]), (c1 ++ c2), (VList (l1 ++ l2)), [].
    rewrite app_nil_r. repeat split; auto. apply V_seq. exists w1, w2, [VList l1], [VList l2], c1, c2. auto 8.
Qed.

Definition first1 := wrap (FPy PSingleton) (group e).

Lemma first1_V w ns cs : V first1 w ns cs <-> exists v, M e w v cs /\ ns = [VList [v]].
Proof.
  unfold first1. rewrite V_wrap. split.
  - intros [n [c [v [c' [H [E [-> P]]]]]]]. apply V_group in H. destruct H as [v0 [H ->]]. destruct (visible H) as [NS _].
    replace (unskip v0) with [v0] in E by (destruct v0; congruence || reflexivity). cbn in E. injection E as <- <-. rewrite app_nil_r in P.
    exists v0. split; [|reflexivity]. eapply M_perm; eauto.
  - intros [v [H ->]]. destruct (visible H) as [NS _]. exists [v], cs, (VList [v]), []. rewrite app_nil_r. repeat split; auto.
    apply V_group. exists v. split; [exact H|]. destruct v; congruence || reflexivity.
Qed.
Lemma first1_A w ns cs : A first1 w ns cs <-> exists v, M e w v cs /\ ns = [VList [v]].
Proof.
  destruct (eph1 first1) eqn:E; [rewrite (@A_eph rec_rules pf _ E); apply first1_V|]. rewrite (@A_node rec_rules pf _ E). split.
  - intros [v [H ->]]. apply M_V in H. destruct H as [n [H ->]]. apply first1_V in H. destruct H as [v [H ->]]. eauto.
  - intros [v [H ->]]. exists (VList [v]). split; [|reflexivity]. apply M_V. exists [VList [v]]. split; [|reflexivity]. apply first1_V. eauto.
Qed.

Lemma many_lists x w ns cs : A (many x) w ns cs -> exists l, ns = [VList l].
Proof. intro H. apply A_many in H. destruct H as [vs [c [_ [-> _]]]]. eauto. Qed.
Lemma first1_lists w ns cs : A first1 w ns cs -> exists l, ns = [VList l].
Proof. intro H. apply first1_A in H. destruct H as [v [_ ->]]. eauto. Qed.
Lemma inner_lists w ns cs : A (add (many lead1) first1) w ns cs -> exists l, ns = [VList l].
Proof.
  intro H. apply A_eph in H; [|reflexivity]. apply V_add_lists in H; [|apply many_lists|apply first1_lists].
  destruct H as [w1 [w2 [l1 [l2 [c1 [c2 [_ [-> _]]]]]]]]. eauto.
Qed.

Lemma comma_list1_M w v cs : M (comma_list1 e) w v cs <-> exists cs', comma_list1_spec w v cs' /\ Permutation cs' cs.
Proof.
  unfold comma_list1. rewrite M_seal, M_V. fold lead1. fold first1. fold tail1. split.
  - intros [ns [H ->]]. apply V_wrap in H. destruct H as [n [c [v [c' [H [E [-> P]]]]]]].
    apply V_add_lists in H; [|apply inner_lists|apply many_lists].
    destruct H as [w1 [w2 [l1 [l2 [c1 [c2 [-> [-> [P1 [H1 H2]]]]]]]]]].
    apply A_eph in H1; [|reflexivity]. apply V_add_lists in H1; [|apply many_lists|apply first1_lists].
    destruct H1 as [w3 [w4 [l3 [l4 [c3 [c4 [-> [E1 [P3 [H3 H4]]]]]]]]]]. injection E1 as ->.
    apply A_many in H3. destruct H3 as [vs [cs3 [H3 [E3 Q3]]]]. injection E3 as ->.
    apply leads1 in H3. destruct H3 as [bs [Fb [-> [-> ->]]]]. apply Permutation_nil in Q3. subst c3.
    apply first1_A in H4. destruct H4 as [v0 [H4 E4]]. injection E4 as ->.
    apply A_many in H2. destruct H2 as [vs [cs2 [H2 [E2 Q2]]]]. injection E2 as ->.
    pose (p0 := Part [] (Some (w4, v0, c4)) [] : vpart).
    assert (O0 : part_ok (M e) p0) by (repeat split; auto; constructor).
    assert (S0 : sealed p0) by (split; [reflexivity|discriminate]).
    destruct (tails1_to H2 O0 S0) as [b [ps [Ob [F [Et [-> [Pc TR]]]]]]]. change (add_after p0 b) with (Part [] (Some (w4, v0, c4)) b) in Et, TR.
    assert (Fp : Forall (part_ok (M e)) (Part [] (Some (w4, v0, c4)) b :: ps)).
    { constructor; [|exact F]. repeat split; auto. constructor. }
    destruct (@lead_to bs Fb _ _ Fp eq_refl ltac:(discriminate) TR) as [l [L1 [L2 [L3 [L4 [L5 [L6 L7]]]]]]].
    cbn [call_func] in E. rewrite <- app_assoc in E. cbn [app] in E.
    change (v0 :: map part_val ps) with (map part_val (Part [] (Some (w4, v0, c4)) b :: ps)) in E. rewrite <- L6 in E.
    rewrite collect in E by exact L1. injection E as <- <-.
    exists (list_complaints l ++ list_notice l). split.
    + exists l. repeat split; auto. rewrite L5, <- Et, <- app_assoc. unfold part_text, p0. cbn [p_before p_element p_after app]. now rewrite app_nil_r.
    + rewrite <- P. apply Permutation_app_tail. rewrite list_complaints_map, L7, <- P1, <- P3, <- Q2, <- Pc. apply Permutation_refl.
  - intros [cs' [[l [L4 [L1 [L2 [L3 [-> [-> ->]]]]]]] P]].
    destruct (lead_of L1 L2 L3 L4) as [bs [p [ps [Fb [Fp [B [NE [TR [Et [Ev Ec]]]]]]]]]].
    inversion Fp as [|? ? O F]; subst. destruct (tails1_of O F TR) as [w [cs2 [Ew [Pw Qw]]]].
    destruct p as [b0 [[[w4 v0] c4]|] a]; [|now destruct NE]. cbn [p_before] in B. subst b0.
    unfold strip_after, part_text in Ew. cbn [p_before p_element p_after app] in Ew. rewrite app_nil_r in Ew.
    destruct O as [_ [_ O]]. cbn [p_element] in O.
    exists [VList (list_values l)]. split; [|reflexivity]. apply V_wrap.
    exists [VList (map part_val l)], (list_complaints l), (VList (list_values l)), (list_notice l).
    split; [|split; [cbn [call_func]; apply collect; exact L1|split; [reflexivity|exact P]]].
    apply V_add_lists; [apply inner_lists|apply many_lists|].
    exists (flat_map (fun b => 44%N :: b) bs ++ w4), w, (map (fun _ => VNone) bs ++ [v0]), (map part_val ps), c4, cs2.
    split; [now rewrite Et, Ew, app_assoc|]. split; [rewrite Ev, <- app_assoc; reflexivity|]. split.
    { rewrite list_complaints_map, Ec. cbn [flat_map part_cs p_element]. now rewrite Qw. }
    split.
    + apply A_eph; [reflexivity|]. apply V_add_lists; [apply many_lists|apply first1_lists|].
      exists (flat_map (fun b => 44%N :: b) bs), w4, (map (fun _ => VNone) bs), [v0], [], c4. repeat split; auto.
      * apply A_many. exists (map (fun _ => VNone) bs), []. repeat split; auto. apply leads1. eauto.
      * apply first1_A. eauto.
    + apply A_many. exists (map part_val ps), cs2. repeat split; auto.
Qed.

End Lists.
